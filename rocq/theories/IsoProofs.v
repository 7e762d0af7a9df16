(** Proofs for IsoModel: the shared slots do not take part in operations on low addresses, and
    the invariant of a machine. *)
From Verif Require MemModel.
From Verif Require Import Base NodeModel VsModel VsSpec VsProofs PrcModel PrcSpec VsProps PrcProofs PrcProps IsoModel IsoSpec.

(** ** The shared slots *)

Definition high (K : gmap N (gmap N pdpte)) : Prop := forall i, is_Some (K !! i) -> (128 <= i)%N.
Definition low (t : gmap N (gmap N pdpte)) : Prop := forall i, is_Some (t !! i) -> (i < 128)%N.

Lemma i4_low va : (va < KERNEL_BASE)%N -> (i4 va < 128)%N.
Proof.
  unfold KERNEL_BASE, i4, SLOT. intros H.
  assert (va / 549755813888 < 128)%N as H1 by (apply N.div_lt_upper_bound; lia).
  rewrite N.mod_small by lia. done.
Qed.
Lemma high_None K i : high K -> (i < 128)%N -> K !! i = None.
Proof. intros H Hi. destruct (K !! i) eqn:E; [|done]. pose proof (H i ltac:(by eexists)). lia. Qed.
Lemma low_insert t i x : low t -> (i < 128)%N -> low (<[i := x]> t).
Proof. intros H Hi j [y Hj]. destruct (decide (i = j)) as [<-|]; [done|]. rewrite lookup_insert_ne in Hj by done. eauto. Qed.
Lemma un_lookup (K t : gmap N (gmap N pdpte)) i : K !! i = None -> (K ∪ t) !! i = t !! i.
Proof. intros H. rewrite lookup_union, H. by destruct (t !! i). Qed.
Lemma un_insert (K t : gmap N (gmap N pdpte)) i x : K !! i = None -> <[i := x]> (K ∪ t) = K ∪ <[i := x]> t.
Proof. intros H. by rewrite insert_union_r. Qed.
Lemma un_diff (K t : gmap N (gmap N pdpte)) : high K -> low t -> (K ∪ t) ∖ K = t.
Proof.
  intros HK Ht. apply map_eq. intros i. apply option_eq. intros x. rewrite lookup_difference_Some. split.
  - intros [H E]. by rewrite un_lookup in H.
  - intros H. assert (K !! i = None) as E by (apply high_None; [done|]; apply Ht; by eexists). by rewrite un_lookup.
Qed.
Lemma un_shared (K t : gmap N (gmap N pdpte)) : map_imap (fun i _ => (K ∪ t) !! i) K = K.
Proof.
  apply map_eq. intros i. rewrite map_lookup_imap. destruct (K !! i) eqn:E; cbn; [|done].
  rewrite lookup_union, E. by destruct (t !! i).
Qed.

Lemma walk_low K t va : K !! i4 va = None -> walk (K ∪ t) va = walk t va.
Proof. intros H. unfold walk. by rewrite un_lookup. Qed.

Definition lift (K : gmap N (gmap N pdpte)) {A} (r : res (gmap N (gmap N pdpte) * A)) :=
  match r with Ok (t, n) => Ok (K ∪ t, n) | Err e => Err e | Panic => Panic end.
Definition lowr {A} (r : res (gmap N (gmap N pdpte) * A)) : Prop :=
  match r with Ok (t, _) => low t | _ => True end.

Lemma map_generic_low lg K f : high K -> forall t n vb pb ps a, low t ->
  (0 < ps)%N -> (vb + ps <= KERNEL_BASE)%N ->
  map_generic lg f (K ∪ t) n vb pb ps a = lift K (map_generic lg f t n vb pb ps a) /\
  lowr (map_generic lg f t n vb pb ps a).
Proof.
  intros HK. induction f as [|f IH]; intros t n vb pb ps a Ht Hps Hb; [done|].
  unfold map_generic; fold map_generic.
  assert (i4 vb < 128)%N as Hi by (apply i4_low; lia).
  pose proof (high_None _ _ HK Hi) as Hn. rewrite un_lookup by done.
  destruct (negb (pb mod BASE =? 0)%N) eqn:A1; [done|].
  destruct (N.eqb_spec (vb mod BASE) 0) as [A2|]; [|done].
  destruct (N.eqb_spec (ps mod BASE) 0) as [A3|]; [|done]. cbn [negb orb].
  assert (BASE <= ps)%N as Hps'.
  { destruct (N.le_gt_cases BASE ps) as [|Hlt]; [done|]. rewrite N.mod_small in A3 by done. lia. }
  destruct (match t !! i4 vb with Some p => (p, n) | None => (∅, S n) end) as [pdpt n1].
  assert (forall vb', i3 vb' < 512 /\ i2 vb' < 512 /\ i1 vb' < 512)%N as Hix.
  { intros. unfold i3, i2, i1. split_and!; by apply N.mod_lt. }
  destruct (Hix vb) as (X3 & X2 & X1).
  assert (forall t' n' m, low t' -> (0 < m)%N -> (m <= ps)%N ->
    (if (m =? ps)%N then Ok (K ∪ t', n') else map_generic lg f (K ∪ t') n' (vb + m) (pb + m) (ps - m) a) =
    lift K (if (m =? ps)%N then Ok (t', n') else map_generic lg f t' n' (vb + m) (pb + m) (ps - m) a) /\
    lowr (if (m =? ps)%N then Ok (t', n') else map_generic lg f t' n' (vb + m) (pb + m) (ps - m) a)) as Hrec.
  { intros t' n' m Ht' Hm Hle. destruct (N.eqb_spec m ps); [done|]. apply IH; [done|lia|lia]. }
  destruct (can_huge pdpt vb pb ps) as [[[] pdpt1]|e|] eqn:Eh; [| |done..].
  - destruct (huge_loop 512 pdpt1 (i3 vb) pb ps 0 a) as [[pdpt' mapped]|e|] eqn:El; [|done..].
    assert (HUGE <= ps)%N as Hh.
    { unfold can_huge in Eh. destruct (N.leb_spec HUGE ps); [done|]. cbn [negb] in Eh. rewrite !orb_true_r in Eh. done. }
    apply huge_loop0 in El as (k & K1 & -> & _ & K2 & _); [|done..]. rewrite un_insert by done. apply Hrec; [by apply low_insert|unfold HUGE; lia|done].
  - destruct (match pdpt1 !! i3 vb with Some (P3Tab pd) => _ | Some (P3Page _) => _ | None => _ end) as [[pd n2]|e|]; [|done..].
    destruct (can_large lg pd vb pb ps) as [[[] pd1]|e|] eqn:Ec; [| |done..].
    + destruct (large_loop 512 pd1 (i2 vb) pb ps 0 a) as [[pd' mapped]|e|] eqn:El; [|done..].
      assert (LARGE <= ps)%N as Hh.
      { unfold can_large in Ec. destruct (N.leb_spec LARGE ps); [done|]. cbn [negb] in Ec. rewrite !orb_true_r in Ec. done. }
      apply large_loop0 in El as (k & K1 & -> & _ & K2 & _); [|done..]. rewrite un_insert by done. apply Hrec; [by apply low_insert|unfold LARGE; lia|done].
    + destruct (match pd1 !! i2 vb with Some (PDTab pt) => _ | Some (PDPage _) => _ | None => _ end) as [[pt n3]|e|]; [|done..].
      destruct (base_loop 512 pt (i1 vb) pb ps 0 a) as [[pt' mapped]|e|] eqn:El; [|done..].
      apply base_loop0 in El as (k & K1 & -> & _ & K2 & _); [|done..]. rewrite un_insert by done. apply Hrec; [by apply low_insert|unfold BASE; lia|done].
Qed.

(** An address space with the shared slots. *)
Definition vin (K : gmap N (gmap N pdpte)) (s : vspace) : vspace := mkVS (vs_map s) (K ∪ vs_pt s).
Lemma vs_map_frame_low lg K s b p sz a s' r : high K -> low (vs_pt s) -> (b + sz <= KERNEL_BASE)%N ->
  vs_map_frame lg s b p sz a = (s', r) ->
  vs_map_frame lg (vin K s) b p sz a = (vin K s', r) /\ low (vs_pt s').
Proof.
  intros HK Hl Hb. unfold vs_map_frame, pt_map. cbn [vin vs_map vs_pt].
  destruct (N.eqb_spec sz 0) as [|Hz]; [by intros [= <- <-]|].
  destruct (negb (p mod sz =? 0)%N); [by intros [= <- <-]|].
  destruct (negb (b mod sz =? 0)%N); [by intros [= <- <-]|].
  destruct (map_generic_low lg K (S (N.to_nat (sz / BASE))) HK (vs_pt s) 0 b p sz a Hl ltac:(lia) Hb) as [-> Hlow].
  destruct (map_generic lg (S (N.to_nat (sz / BASE))) (vs_pt s) 0 b p sz a) as [[t n]|e|]; cbn [lift lowr] in *;
    destruct (last_below (vs_map s) (b + sz)) as [[eb mi]|]; try destruct (eb + mi_size mi <=? b)%N;
    try destruct ((eb =? b)%N && (mi_pa mi =? p)%N && (mi_size mi <=? sz)%N && bool_decide (mi_rights mi = a));
    by intros [= <- <-].
Qed.
Lemma vs_unmap_low dbg K s va s' r : high K -> low (vs_pt s) -> (va < KERNEL_BASE)%N ->
  vs_unmap dbg s va = (s', r) ->
  vs_unmap dbg (vin K s) va = (vin K s', r) /\ low (vs_pt s').
Proof.
  intros HK Hl Hb. pose proof (i4_low _ Hb) as Hi. pose proof (high_None _ _ HK Hi) as Hn.
  assert (forall t q, pt_unmap (vs_pt s) va = (t, q) -> pt_unmap (K ∪ vs_pt s) va = (K ∪ t, q) /\ low t) as Hu.
  { intros t q. unfold pt_unmap. destruct (negb (va mod BASE =? 0)%N); [by intros [= <- <-]|].
    unfold modify_generic. rewrite un_lookup by done.
    destruct (vs_pt s !! i4 va) as [pdpt|]; [|by intros [= <- <-]].
    destruct (pdpt !! i3 va) as [[l|pd]|]; [intros [= <- <-]; rewrite un_insert by done; split; [done|by apply low_insert]| |by intros [= <- <-]].
    destruct (pd !! i2 va) as [[l|pt]|]; [intros [= <- <-]; rewrite un_insert by done; split; [done|by apply low_insert]| |by intros [= <- <-]].
    destruct (pt !! i1 va) as [l|]; [intros [= <- <-]; rewrite un_insert by done; split; [done|by apply low_insert]|by intros [= <- <-]]. }
  unfold vs_unmap. cbn [vin vs_map vs_pt].
  destruct (pt_unmap (vs_pt s) va) as [t q] eqn:E. destruct (Hu _ _ eq_refl) as [-> Hlow].
  destruct q as [[[[vb pa] sz] a]|e|];
    destruct (last_below (vs_map s) (va + 1)) as [[eb mi]|];
    try destruct ((eb <=? va)%N && (va <? eb + mi_size mi)%N);
    try destruct (dbg && bool_decide (vs_map s !! vb = None)); by intros [= <- <-].
Qed.

(** ** A process with the shared slots *)

Definition op_low (s : prc) (op : pop) : Prop :=
  match op with
  | PoDisp f _ _ => (p_exoff s + pf_size f <= KERNEL_BASE)%N
  | PoMapFrame b f _ _ => (b + pf_size f <= KERNEL_BASE)%N
  | PoMapDevice f _ => False
  | PoMapId b id _ _ => forall f k, p_pfm s !! id = Some (Some f, k) -> (b + pf_size f <= KERNEL_BASE)%N
  | PoUnmap va => (va < KERNEL_BASE)%N
  | _ => True
  end.
Lemma prc_step_low lg dbg nm K s op s' r : high K -> low (vs_pt (p_vs s)) -> op_low s op ->
  prc_step lg dbg nm s op = (s', r) ->
  prc_step lg dbg nm (shared_in K s) op = (shared_in K s', r) /\ low (vs_pt (p_vs s')).
Proof.
  intros HK Hl Hop. assert (forall s, p_vs (shared_in K s) = vin K (p_vs s)) as Ev by done.
  destruct op as [f aff fail|b f a refill|f a|b id a refill|va|g region oom|f|id]; cbn [prc_step op_low] in *; try done.
  - unfold alloc_executors. rewrite Ev. cbn [shared_in p_pfm p_eid p_exoff p_cache p_active].
    destruct (vs_map_frame lg (p_vs s) (p_exoff s) (pf_base f) (pf_size f) (ma_or ma_user ma_write_)) as [v q] eqn:E.
    destruct (vs_map_frame_low lg K _ _ _ _ _ _ _ HK Hl Hop E) as [-> Hlow].
    destruct q; [|by intros [= <- <-]..]. destruct (carve _ _ _ _ _ _ _) as [[e c] [ | | ]]; by intros [= <- <-].
  - destruct refill; [|by intros [= <- <-]]. rewrite Ev. cbn [shared_in p_pfm p_eid p_exoff p_cache p_active].
    destruct (vs_map_frame lg (p_vs s) b (pf_base f) (pf_size f) a) as [v q] eqn:E.
    destruct (vs_map_frame_low lg K _ _ _ _ _ _ _ HK Hl Hop E) as [-> Hlow]. by intros [= <- <-].
  - unfold pfs_get, pfs_add_mapping. cbn [shared_in p_pfm p_eid p_exoff p_cache p_active].
    destruct (p_pfm s !! id) as [[[f|] k]|] eqn:Ei; [|by intros [= <- <-]..]. specialize (Hop _ _ eq_refl).
    destruct refill; [|by intros [= <- <-]]. rewrite Ev.
    destruct (vs_map_frame lg (p_vs s) b (pf_base f) (pf_size f) a) as [v q] eqn:E.
    destruct (vs_map_frame_low lg K _ _ _ _ _ _ _ HK Hl Hop E) as [Hv Hlow].
    rewrite Hv. by intros [= <- <-].
  - rewrite Ev. cbn [shared_in p_pfm p_eid p_exoff p_cache p_active].
    destruct (vs_unmap dbg (p_vs s) va) as [v q] eqn:E.
    destruct (vs_unmap_low dbg K _ _ _ _ HK Hl Hop E) as [-> Hlow].
    destruct q as [[[[vb pa] sz] a]|e|]; [|by intros [= <- <-]..].
    destruct (if ma_alias a then _ else _) as [fs [ | | ]]; by intros [= <- <-].
  - cbn [shared_in p_pfm p_eid p_exoff p_cache p_active p_vs].
    destruct (get_executor (p_cache s) region) as [c [x|e|]]; [destruct oom|..]; by intros [= <- <-].
  - cbn [shared_in p_pfm p_eid p_exoff p_cache p_active p_vs]. destruct (pfs_add (p_pfm s) f) as [fs q]. by intros [= <- <-].
  - cbn [shared_in p_pfm p_eid p_exoff p_cache p_active p_vs]. destruct (pfs_dealloc (p_pfm s) id) as [fs q]. by intros [= <- <-].
Qed.

Lemma own_shared K s : high K -> low (vs_pt (p_vs s)) -> own_part K (shared_in K s) = s.
Proof.
  intros HK Hl. unfold own_part, shared_in. cbn [p_vs vs_map vs_pt p_pfm p_eid p_exoff p_cache p_active].
  rewrite un_diff by done. by destruct s as [[]].
Qed.
Lemma shared_shared K s : shared_part K (shared_in K s) = K.
Proof. unfold shared_part. apply un_shared. Qed.

(** ** Frames and pages *)

Lemma page_size_cases sz : page_sized true sz -> sz = BASE \/ sz = LARGE.
Proof. intros [-> |[-> _]]; [by left|by right]. Qed.
Lemma in_frame_page f y : frame_ok true f -> in_frame f y <-> page_of_frame f (y / BASE) = true.
Proof.
  intros [Hs Ha]. unfold in_frame, within, page_of_frame. rewrite andb_true_iff, N.leb_le, N.ltb_lt.
  assert (pf_base f mod BASE = 0 /\ pf_size f mod BASE = 0)%N as [B1 B2].
  { apply page_size_cases in Hs as [E|E]; rewrite E in *; [by split|]. split; [|done].
    clear -Ha. unfold LARGE, BASE in *. set (b := pf_base f) in *. clearbody b. zify. Z.to_euclidean_division_equations. lia. }
  clear Hs Ha. revert B1 B2. generalize (pf_base f) (pf_size f). clear f. unfold BASE. intros b s B1 B2.
  zify. Z.to_euclidean_division_equations. lia.
Qed.
Lemma take_frame_spec fr sz f fr' : page_sized true sz -> take_frame fr sz f = Some fr' ->
  pf_size f = sz /\ frame_ok true f /\ (forall x, page_of_frame f x = true -> fr x = true) /\
  forall x, fr' x = fr x && negb (page_of_frame f x).
Proof.
  intros Hsz. unfold take_frame. destruct (N.eqb_spec (pf_size f) sz) as [E|]; [|done].
  destruct (N.eqb_spec (pf_base f mod sz) 0) as [Ha|]; [|done].
  destruct (forallb fr (frame_pages f)) eqn:Ef; [|done]. intros [= <-].
  split; [done|]. split; [split; [by rewrite E|by rewrite E]|]. split; [|done].
  intros x Hx. rewrite forallb_forall in Ef. apply Ef. unfold page_of_frame in Hx.
  apply andb_true_iff in Hx as [H1 H2]. apply N.leb_le in H1. apply N.ltb_lt in H2.
  unfold frame_pages. apply in_map_iff. exists (N.to_nat (x - pf_base f / BASE)). split; [lia|]. apply in_seq.
  split; [lia|]. rewrite Nat.add_0_l.
  assert (x - pf_base f / BASE < pf_size f / BASE)%N; [|lia].
  apply page_size_cases in Hsz as [-> | ->]; rewrite E in *; clear -H1 H2 Ha; unfold BASE, LARGE in *;
    revert H1 H2 Ha; generalize (pf_base f); intros b; zify; Z.to_euclidean_division_equations; lia.
Qed.

(** ** The invariant of one process *)

Section inv.
Context (dbg : bool) (nm : nat).

(** [O]: the pages of physical memory that belong to the process. *)
Record powns (O : N -> Prop) (h : list (pop * res pret)) (s : prc) : Prop := {
  po_inv : pinv true dbg nm h s;
  po_apart : apart h s;
  po_rec : forall b mi, vs_map (p_vs s) !! b = Some mi -> forall y, within (mi_pa mi) (mi_size mi) y -> O (y / BASE)%N;
  po_reg : forall i f, reg h !! i = Some f -> forall y, in_frame f y -> O (y / BASE)%N;
  po_low : low (vs_pt (p_vs s));
  po_off : (p_exoff s mod LARGE = 0)%N }.
Definition pown (O : N -> Prop) (s : prc) : Prop := exists h, powns O h s.

Lemma pown_mono (O O' : N -> Prop) s : (forall x, O x -> O' x) -> pown O s -> pown O' s.
Proof using Type.
  intros H (h & [I A R G L X]). exists h. split; try done.
  - intros b mi Hb y Hy. apply H. by eapply R.
  - intros i f Hi y Hy. apply H. by eapply G.
Qed.

Lemma rec_pages s b mi : reach true dbg (p_vs s) -> vs_map (p_vs s) !! b = Some mi ->
  frame_ok true (mkPF (mi_pa mi) (mi_size mi)).
Proof using Type.
  intros R Hb. destruct (vi_rec _ _ (reach_inv _ _ _ R) _ _ Hb) as (P & _ & _ & H & _).
  split; [|done]. destruct P as [-> |[-> _]]; [by left|by right].
Qed.

(** What the mapped range of a mapping step contributes. *)
Lemma map_recs vs b f a v r :
  reach true dbg vs -> page_sized true (pf_size f) -> (b + pf_size f <= 2 ^ 48)%N ->
  vs_map_frame true vs b (pf_base f) (pf_size f) a = (v, r) ->
  forall k mi, vs_map v !! k = Some mi -> vs_map vs !! k = Some mi \/ k = b /\ mi = mkMI (pf_base f) (pf_size f) a.
Proof using Type.
  intros R Hs H48 Ev k mi Hk.
  destruct (map_step_cases true dbg vs b (pf_base f) (pf_size f) a R Hs H48) as (q & Eq & _ & _ & Hc).
  rewrite Ev in Eq. subst q. cbn [fst snd] in Hc. destruct Hc as [(Hm & _)|[-> _]]; [|by left].
  rewrite Hm in Hk. destruct (decide (b = k)) as [<-|].
  - rewrite lookup_insert in Hk. injection Hk as <-. by right.
  - rewrite lookup_insert_ne in Hk by done. by left.
Qed.

Definition plus (O : N -> Prop) (f : pframe) : N -> Prop := fun x => O x \/ page_of_frame f x = true.

Lemma low48 x : (x <= KERNEL_BASE)%N -> (x <= 2 ^ 48)%N.
Proof using Type. intros. etransitivity; [done|]. by vm_compute. Qed.

Lemma fresh_meets O h s f i g : powns O h s -> frame_ok true f -> (forall x, page_of_frame f x = true -> ~ O x) ->
  reg h !! i = Some g -> ~ meets f g.
Proof using Type.
  intros I Hf Hn Hi (y & H1 & H2). apply (in_frame_page _ _ Hf) in H1. apply (Hn _ H1). by eapply (po_reg _ _ _ I).
Qed.
Lemma fresh_unmapped O h s f x p r : powns O h s -> frame_ok true f -> (forall x, page_of_frame f x = true -> ~ O x) ->
  (x < 2 ^ 48)%N -> vs_resolve (p_vs s) x = Ok (p, r) -> ~ in_frame f p.
Proof using Type.
  intros I Hf Hn Hx Hr H. apply (in_frame_page _ _ Hf) in H. apply (Hn _ H).
  destruct (C21_bookkeeping _ _ _ (pi_reach _ _ _ _ _ (po_inv _ _ _ I))) as (_ & B2 & _).
  destruct (B2 _ _ _ Hx Hr) as (b & mi & Hb & Hw & -> & _). eapply (po_rec _ _ _ I); [done|]. unfold within in *. lia.
Qed.

Lemma pown_map O s b f a refill s' r :
  pown O s -> frame_ok true f -> ma_alias a = false -> (b + pf_size f <= KERNEL_BASE)%N ->
  (forall x, page_of_frame f x = true -> ~ O x) ->
  prc_step true dbg nm s (PoMapFrame b f a refill) = (s', r) ->
  r <> Panic /\ pown (plus O f) s' /\
  (is_ok r -> vs_map (p_vs s') = <[b := mkMI (pf_base f) (pf_size f) a]> (vs_map (p_vs s)) /\
     forall k mi, vs_map (p_vs s) !! k = Some mi -> vs_map (p_vs s') !! k = Some mi).
Proof using Type.
  intros (h & I) Hf Ha Hb Hn Hs. pose proof (low48 _ Hb) as H48.
  assert (op_ok true nm h s (PoMapFrame b f a refill)) as Hop by done.
  assert (excl_op h s (PoMapFrame b f a refill)) as Hex by (intros i g; by eapply fresh_meets).
  destruct (pinv_step _ _ _ _ _ _ _ _ (po_inv _ _ _ I) Hop Hs) as [Hp I'].
  pose proof (apart_step _ _ _ _ _ _ _ _ (po_inv _ _ _ I) (po_apart _ _ _ I) Hop Hex Hs) as A'.
  assert (high ∅) as H0 by (intros i [x Hx]; by rewrite lookup_empty in Hx).
  destruct (prc_step_low true dbg nm ∅ s (PoMapFrame b f a refill) s' r H0 (po_low _ _ _ I) Hb Hs) as [_ L'].
  pose proof (pi_reach _ _ _ _ _ (po_inv _ _ _ I)) as R.
  assert (reg (h ++ [(PoMapFrame b f a refill, r)]) = reg h) as Er by (rewrite reg_snoc; done).
  split; [done|]. split.
  - exists (h ++ [(PoMapFrame b f a refill, r)]). split; [done|done| | |done|].
    + intros k mi Hk y Hy. cbn [prc_step] in Hs. destruct refill; [|injection Hs as <- <-; left; by eapply (po_rec _ _ _ I)].
      destruct (vs_map_frame true (p_vs s) b (pf_base f) (pf_size f) a) as [v q] eqn:Ev. injection Hs as <- <-.
      destruct Hf as [Hf1 Hf2]. destruct (map_recs _ _ _ _ _ _ R Hf1 H48 Ev _ _ Hk) as [Hk'|[-> ->]].
      * left. by eapply (po_rec _ _ _ I).
      * right. by apply in_frame_page.
    + rewrite Er. intros i g Hi y Hy. left. by eapply (po_reg _ _ _ I).
    + cbn [prc_step] in Hs. destruct refill; [|injection Hs as <- <-; apply I].
      destruct (vs_map_frame true (p_vs s) b (pf_base f) (pf_size f) a) as [v q]. injection Hs as <- <-. apply I.
  - intros Hr. cbn [prc_step] in Hs. destruct refill; [|injection Hs as <- <-; done].
    pose proof Hf as [Hf1 Hf2].
    destruct (map_step_cases true dbg (p_vs s) b (pf_base f) (pf_size f) a R Hf1 H48) as (q & Eq & R1 & _ & Hc).
    rewrite Eq in Hs. destruct q as [v q]. injection Hs as <- <-. cbn [fst snd p_vs] in *.
    destruct q as [[]|e|]; cbn [rmap] in Hr; [|done..].
    destruct Hc as [(Hm & Hno & _)|[-> Hc]].
    + rewrite Hm. split; [done|]. intros k mi Hk. rewrite lookup_insert_ne; [done|]. by intros <-; rewrite Hno in Hk.
    + exfalso. specialize (Hc eq_refl).
      destruct (C18_conflict true dbg (p_vs s) b (pf_base f) (pf_size f) a b R Hf1 H48 Hf2) as (_ & [Hx|[_ Hx]]).
      * destruct (N.eq_dec (b mod pf_size f) 0); [done|]. exfalso.
        unfold vs_map_frame in Eq. assert ((pf_size f =? 0)%N = false) as E0 by (apply N.eqb_neq; apply frame_pos in Hf; lia).
        rewrite E0 in Eq. rewrite Hf2 in Eq. cbn [negb N.eqb] in Eq. apply N.eqb_neq in n. by rewrite n in Eq.
      * apply frame_pos in Hf. unfold within. lia.
      * done.
      * rewrite Eq in Hx. by destruct Hx as (? & ? & ? & ? & _).
      * apply (fresh_unmapped O h s f b _ _ I Hf Hn) in Hx; [|apply frame_pos in Hf; lia].
        apply Hx. apply frame_pos in Hf. unfold in_frame, within. lia.
Qed.

Lemma pown_id O s b id a refill s' r :
  pown O s -> ma_alias a = true -> (b + LARGE <= KERNEL_BASE)%N ->
  prc_step true dbg nm s (PoMapId b id a refill) = (s', r) -> r <> Panic /\ pown O s'.
Proof using Type.
  intros (h & I) Ha Hb Hs.
  assert (forall f, reg h !! id = Some f -> (pf_size f <= LARGE)%N) as Hsz.
  { intros f Hf. destruct (pi_fok _ _ _ _ _ (po_inv _ _ _ I) _ _ Hf) as [[-> |[-> _]] _]; by vm_compute. }
  assert (op_ok true nm h s (PoMapId b id a refill)) as Hop.
  { split; [done|]. intros f Hf. apply low48. specialize (Hsz _ Hf). lia. }
  destruct (pinv_step _ _ _ _ _ _ _ _ (po_inv _ _ _ I) Hop Hs) as [Hp I'].
  pose proof (apart_step _ _ _ _ _ _ _ _ (po_inv _ _ _ I) (po_apart _ _ _ I) Hop Logic.I Hs) as A'.
  assert (high ∅) as H0 by (intros i [x Hx]; by rewrite lookup_empty in Hx).
  assert (op_low s (PoMapId b id a refill)) as Hlw.
  { intros f k Hi. assert (reg h !! id = Some f) as Hr by (by rewrite (pi_reg _ _ _ _ _ (po_inv _ _ _ I)), Hi). specialize (Hsz _ Hr). lia. }
  destruct (prc_step_low true dbg nm ∅ s _ s' r H0 (po_low _ _ _ I) Hlw Hs) as [_ L'].
  pose proof (pi_reach _ _ _ _ _ (po_inv _ _ _ I)) as R.
  assert (reg (h ++ [(PoMapId b id a refill, r)]) = reg h) as Er by (rewrite reg_snoc; done).
  split; [done|]. exists (h ++ [(PoMapId b id a refill, r)]). split; [done|done| | |done|].
  - intros k mi Hk y Hy. cbn [prc_step] in Hs. unfold pfs_get, pfs_add_mapping in Hs.
    destruct (p_pfm s !! id) as [[[f|] c]|] eqn:Ei; [|injection Hs as <- <-; by eapply (po_rec _ _ _ I)..].
    destruct refill; [|injection Hs as <- <-; by eapply (po_rec _ _ _ I)].
    assert (reg h !! id = Some f) as Hr by (by rewrite (pi_reg _ _ _ _ _ (po_inv _ _ _ I)), Ei).
    destruct (vs_map_frame true (p_vs s) b (pf_base f) (pf_size f) a) as [v q] eqn:Ev. injection Hs as <- <-.
    destruct (pi_fok _ _ _ _ _ (po_inv _ _ _ I) _ _ Hr) as [Hf1 Hf2]. specialize (Hsz _ Hr).
    assert (b + pf_size f <= 2 ^ 48)%N as H48 by (apply low48; lia).
    destruct (map_recs _ _ _ _ _ _ R Hf1 H48 Ev _ _ Hk) as [Hk'|[-> ->]].
    + by eapply (po_rec _ _ _ I).
    + by eapply (po_reg _ _ _ I).
  - rewrite Er. apply I.
  - cbn [prc_step] in Hs. unfold pfs_get, pfs_add_mapping in Hs.
    destruct (p_pfm s !! id) as [[[f|] c]|]; [|injection Hs as <- <-; apply I..].
    destruct refill; [|injection Hs as <- <-; apply I].
    destruct (vs_map_frame true (p_vs s) b (pf_base f) (pf_size f) a) as [v q]. injection Hs as <- <-. apply I.
Qed.

Lemma pown_unmap O s va s' r :
  pown O s -> (va < KERNEL_BASE)%N ->
  prc_step true dbg nm s (PoUnmap va) = (s', r) -> r <> Panic /\ pown O s'.
Proof using Type.
  intros (h & I) Hb Hs.
  assert (op_ok true nm h s (PoUnmap va)) as Hop. { cbn. eapply N.lt_le_trans; [done|]. by apply low48. }
  destruct (pinv_step _ _ _ _ _ _ _ _ (po_inv _ _ _ I) Hop Hs) as [Hp I'].
  pose proof (apart_step _ _ _ _ _ _ _ _ (po_inv _ _ _ I) (po_apart _ _ _ I) Hop Logic.I Hs) as A'.
  assert (high ∅) as H0 by (intros i [x Hx]; by rewrite lookup_empty in Hx).
  destruct (prc_step_low true dbg nm ∅ s (PoUnmap va) s' r H0 (po_low _ _ _ I) Hb Hs) as [_ L'].
  pose proof (pi_reach _ _ _ _ _ (po_inv _ _ _ I)) as R.
  assert (reg (h ++ [(PoUnmap va, r)]) = reg h) as Er by (rewrite reg_snoc; done).
  split; [done|]. exists (h ++ [(PoUnmap va, r)]). split; [done|done| | |done|].
  - cbn [prc_step] in Hs. pose proof (C19_unmap true dbg (p_vs s) va R Hop) as Hu.
    assert (forall v q, vs_unmap dbg (p_vs s) va = (v, q) -> forall k mi, vs_map v !! k = Some mi -> vs_map (p_vs s) !! k = Some mi) as Hsub.
    { intros v q Ev k mi. destruct (vs_resolve (p_vs s) va).
      2-3: destruct Hu as (e' & Eu & _); rewrite Eu in Ev; by injection Ev as <- <-.
      destruct Hu as [(_ & Eu)|(_ & v' & vb & p & sz & a' & Eu & _ & _ & _ & Hdel & _)]; rewrite Eu in Ev; injection Ev as <- <-; [done|].
      rewrite Hdel. intros Hk. by apply lookup_delete_Some in Hk as [_ ?]. }
    destruct (vs_unmap dbg (p_vs s) va) as [v [[[[vb pa] sz] a]|e|]]; [|injection Hs as <- <-; apply I..].
    specialize (Hsub _ _ eq_refl). destruct (if ma_alias a then _ else _) as [fs q].
    destruct q; injection Hs as <- <-; intros k mi Hk; eapply (po_rec _ _ _ I); by apply Hsub.
  - rewrite Er. apply I.
  - cbn [prc_step] in Hs. destruct (vs_unmap dbg (p_vs s) va) as [v [[[[vb pa] sz] a]|e|]]; [|injection Hs as <- <-; apply I..].
    destruct (if ma_alias a then _ else _) as [fs [ | | ]]; injection Hs as <- <-; apply I.
Qed.

Lemma pown_add O s f s' r :
  pown O s -> frame_ok true f -> (forall x, page_of_frame f x = true -> ~ O x) ->
  prc_step true dbg nm s (PoAddFrame f) = (s', r) -> r <> Panic /\ pown (plus O f) s' /\ p_vs s' = p_vs s.
Proof using Type.
  intros (h & I) Hf Hn Hs.
  assert (op_ok true nm h s (PoAddFrame f)) as Hop by (split; [done|]; intros; by eapply fresh_meets).
  assert (excl_op h s (PoAddFrame f)) as Hex by (intros x p q; by eapply fresh_unmapped).
  destruct (pinv_step _ _ _ _ _ _ _ _ (po_inv _ _ _ I) Hop Hs) as [Hp I'].
  pose proof (apart_step _ _ _ _ _ _ _ _ (po_inv _ _ _ I) (po_apart _ _ _ I) Hop Hex Hs) as A'.
  assert (p_vs s' = p_vs s /\ p_exoff s' = p_exoff s) as [Ev Eo].
  { cbn [prc_step] in Hs. destruct (pfs_add (p_pfm s) f) as [fs q]. by injection Hs as <- <-. }
  split; [done|]. split; [|done]. exists (h ++ [(PoAddFrame f, r)]). split; rewrite ?Ev, ?Eo; try done; try apply I.
  - intros k mi Hk y Hy. left. by eapply (po_rec _ _ _ I).
  - rewrite reg_snoc. cbn [reg_step]. intros i g Hi y Hy.
    destruct r as [[]| |]; try (left; by eapply (po_reg _ _ _ I)).
    destruct (decide (i = id)) as [->|].
    + rewrite lookup_insert in Hi. injection Hi as <-. right. by apply in_frame_page.
    + rewrite lookup_insert_ne in Hi by done. left. by eapply (po_reg _ _ _ I).
Qed.

Lemma pown_release O s id s' r :
  pown O s -> prc_step true dbg nm s (PoRelease id) = (s', r) ->
  match r with
  | Ok (PrFrame f) => frame_ok true f /\ (forall x, page_of_frame f x = true -> O x) /\
      pown (fun x => O x /\ page_of_frame f x = false) s' /\ p_vs s' = p_vs s
  | Err e => s' = s
  | _ => False
  end.
Proof using Type.
  intros (h & I) Hs. pose proof (po_inv _ _ _ I) as P.
  destruct (pinv_step _ _ _ _ _ (PoRelease id) _ _ P Logic.I Hs) as [Hp I'].
  pose proof (apart_step _ _ _ _ _ (PoRelease id) _ _ P (po_apart _ _ _ I) Logic.I Logic.I Hs) as A'.
  pose proof Hs as Hs'. cbn [prc_step] in Hs. unfold pfs_dealloc in Hs.
  assert (forall s0 : prc, mkPrc (p_vs s0) (p_pfm s0) (p_eid s0) (p_exoff s0) (p_cache s0) (p_active s0) = s0) as Eta by (by intros []).
  destruct (p_pfm s !! id) as [[[f|] [|k]]|] eqn:Ei; injection Hs as <- <-; cbn [rmap] in *; rewrite ?Eta; try done.
  assert (reg h !! id = Some f) as Hid by (by rewrite (pi_reg _ _ _ _ _ P), Ei).
  pose proof (pi_fok _ _ _ _ _ P _ _ Hid) as Hf.
  assert (al (vs_map (p_vs s)) (pf_base f) = 0) as Hal.
  { pose proof (pi_cnt _ _ _ _ _ P _ _ _ Ei). lia. }
  split; [done|]. split.
  { intros x Hx. assert (x = (x * BASE) / BASE)%N as Ex by (by rewrite N.div_mul).
    rewrite Ex. eapply (po_reg _ _ _ I); [done|]. apply in_frame_page; [done|]. by rewrite <- Ex. }
  split; [|done]. exists (h ++ [(PoRelease id, Ok (PrFrame f))]). split; try done; try apply I; cbn [p_vs].
  - intros b mi Hb y Hy. split; [by eapply (po_rec _ _ _ I)|]. apply not_true_is_false. intros Hpg.
    apply in_frame_page in Hpg; [|done]. destruct (ma_alias (mi_rights mi)) eqn:Ha.
    + destruct (pi_al _ _ _ _ _ P _ _ Hb Ha) as (j & g & l & Hj & Hg & Hsg). destruct (decide (j = id)) as [->|Hne].
      * rewrite Ei in Hj. injection Hj as <- <-. by apply (al_zero _ _ _ _ Hal Hb Ha).
      * assert (reg h !! j = Some g) as Hr' by (by rewrite (pi_reg _ _ _ _ _ P), Hj).
        apply (pi_disj _ _ _ _ _ P _ _ _ _ Hid Hr' ltac:(done)). exists y. split; [done|]. unfold in_frame, within in *. rewrite Hg, Hsg. done.
    + eapply (po_apart _ _ _ I); try done.
  - rewrite reg_snoc. cbn [reg_step]. intros i g Hi y Hy. apply lookup_delete_Some in Hi as [Hne Hi].
    split; [by eapply (po_reg _ _ _ I)|]. apply not_true_is_false. intros Hpg. apply in_frame_page in Hpg; [|done].
    apply (pi_disj _ _ _ _ _ P _ _ _ _ Hid Hi Hne). by exists y.
Qed.

Lemma pown_exec O s f aff fail s' r :
  pown O s -> frame_ok true f -> pf_size f = LARGE -> aff < MAX_NUMA_NODES -> (p_exoff s + LARGE <= KERNEL_BASE)%N ->
  (forall x, page_of_frame f x = true -> ~ O x) ->
  alloc_executors true s f aff fail = (s', r) -> pown (plus O f) s'.
Proof using Type.
  intros (h & I) Hf Hsz Haff Hb Hn Hs. pose proof (low48 _ Hb) as H48. pose proof (po_inv _ _ _ I) as P.
  pose proof (pi_reach _ _ _ _ _ P) as R. pose proof (po_off _ _ _ I) as Hoff. pose proof Hf as [Hf1 Hf2].
  assert (pown (plus O f) s) as Hsame by (eapply (pown_mono O); [by left|by exists h]).
  assert (forall s0 : prc, mkPrc (p_vs s0) (p_pfm s0) (p_eid s0) (p_exoff s0) (p_cache s0) (p_active s0) = s0) as Eta by (by intros []).
  destruct (map_frame_cases true (p_vs s) (p_exoff s) (pf_base f) LARGE (ma_or ma_user ma_write_) (reach_inv _ _ _ R) ltac:(by right) H48)
    as [[_ E]|[(_ & _ & E)|(_ & _ & [Hc|Hc])]].
  1-2: unfold alloc_executors in Hs; rewrite Hsz, E, Eta in Hs; by injection Hs as <- <-.
  2:{ destruct Hc as (k & mi & Hk & L1 & L2 & [(-> & Hpa & Hle & Hr & E)|[_ E]]).
    - exfalso. pose proof (rec_pages _ _ _ R Hk) as Hm. apply frame_pos in Hm. cbn [pf_size] in Hm.
      apply (Hn (pf_base f / BASE)%N).
      + apply in_frame_page; [done|]. apply frame_pos in Hf. unfold in_frame, within. lia.
      + eapply (po_rec _ _ _ I); [done|]. unfold within. lia.
    - unfold alloc_executors in Hs; rewrite Hsz, E, Eta in Hs; by injection Hs as <- <-. }
  destruct Hc as (Hu & _).
  assert (prc_step true dbg nm s (PoDisp f aff fail) = (s', rmap PrCreated r)) as Hst by (cbn [prc_step]; by rewrite Hs).
  assert (op_ok true nm h s (PoDisp f aff fail)) as Hop.
  { split_and!; try done. intros x [X1 X2]. apply resolve_none, Hu; lia. }
  assert (excl_op h s (PoDisp f aff fail)) as Hex by (intros i g; by eapply fresh_meets).
  destruct (pinv_step _ _ _ _ _ _ _ _ P Hop Hst) as [Hp I'].
  pose proof (apart_step _ _ _ _ _ _ _ _ P (po_apart _ _ _ I) Hop Hex Hst) as A'.
  assert (high ∅) as H0 by (intros i [x Hx]; by rewrite lookup_empty in Hx).
  assert (op_low s (PoDisp f aff fail)) as Hlw by (cbn [op_low]; by rewrite Hsz).
  destruct (prc_step_low true dbg nm ∅ s (PoDisp f aff fail) s' _ H0 (po_low _ _ _ I) Hlw Hst) as [_ L'].
  unfold alloc_executors in Hs. rewrite <- Hsz in H48.
  destruct (vs_map_frame true (p_vs s) (p_exoff s) (pf_base f) (pf_size f) (ma_or ma_user ma_write_)) as [v q] eqn:Ev.
  pose proof (map_recs _ _ _ _ _ _ R Hf1 H48 Ev) as Hrec.
  assert (p_vs s' = v /\ (p_exoff s' mod LARGE = 0)%N) as [Ev' Eo].
  { destruct q; [|by injection Hs as <- <-..].
    destruct (carve _ _ _ _ _ _ _) as [[e c] [ | | ]]; injection Hs as <- <-; (split; [done|]); cbn [p_exoff]; try done.
    rewrite Hsz. rewrite <- N.add_mod_idemp_r by done. rewrite N.mod_same by done. by rewrite N.add_0_r. }
  exists (h ++ [(PoDisp f aff fail, rmap PrCreated r)]). split; try done.
  - rewrite Ev'. intros k mi Hk y Hy. destruct (Hrec _ _ Hk) as [Hk'|[-> ->]].
    + left. by eapply (po_rec _ _ _ I).
    + right. by apply in_frame_page.
  - rewrite reg_snoc. cbn [reg_step]. intros i g Hi y Hy. left. by eapply (po_reg _ _ _ I).
Qed.

(** *** Several frames *)
Fixpoint tk (fr : N -> bool) (fs : list pframe) (fr' : N -> bool) : Prop :=
  match fs with
  | [] => fr = fr'
  | f :: fs => page_sized true (pf_size f) /\ exists fr1, take_frame fr (pf_size f) f = Some fr1 /\ tk fr1 fs fr'
  end.
Lemma take_frames_tk sz fs : page_sized true sz -> forall fr fr', take_frames fr sz fs = Some fr' -> tk fr fs fr'.
Proof using Type.
  intros Hsz. induction fs as [|f fs IH]; intros fr fr'; cbn [take_frames tk]; [by intros [= ->]|].
  destruct (take_frame fr sz f) as [fr1|] eqn:E; [|done]. intros H.
  destruct (take_frame_spec _ _ _ _ Hsz E) as (Es & _). rewrite Es. split; [done|]. exists fr1. auto.
Qed.
Lemma take_frames_size sz fs : forall fr fr', take_frames fr sz fs = Some fr' -> Forall (fun f => pf_size f = sz) fs.
Proof using Type.
  induction fs as [|f fs IH]; intros fr fr'; cbn [take_frames]; [done|].
  destruct (take_frame fr sz f) as [fr1|] eqn:E; [|done]. intros H. constructor; [|by eapply IH].
  unfold take_frame in E. by destruct (N.eqb_spec (pf_size f) sz).
Qed.
Lemma tk_app fr l1 fr1 l2 fr2 : tk fr l1 fr1 -> tk fr1 l2 fr2 -> tk fr (l1 ++ l2) fr2.
Proof using Type.
  revert fr. induction l1 as [|f l1 IH]; intros fr; cbn [tk app]; [by intros ->|].
  intros (H & fr' & E & H1) H2. split; [done|]. exists fr'. auto.
Qed.
Lemma tk_frames fr fs fr' : tk fr fs fr' -> (forall x, fr' x = true -> fr x = true) /\
  (forall f, f ∈ fs -> frame_ok true f /\ forall x, page_of_frame f x = true -> fr x = true /\ fr' x = false) /\
  (forall x, fr x = true -> fr' x = false -> exists f, f ∈ fs /\ page_of_frame f x = true).
Proof using Type.
  revert fr. induction fs as [|f fs IH]; intros fr; cbn [tk].
  { intros <-. split; [done|]. split; [|congruence]. intros f Hf. by apply elem_of_nil in Hf. }
  intros (Hs & fr1 & E & H). destruct (take_frame_spec _ _ _ _ Hs E) as (_ & Hf & Hfr & Hfr1).
  destruct (IH _ H) as (H1 & H2 & H3). assert (forall x, fr' x = true -> fr x = true /\ page_of_frame f x = false) as Hsub.
  { intros x Hx. apply H1 in Hx. rewrite Hfr1 in Hx. apply andb_true_iff in Hx as [Hx Hy]. split; [done|]. by apply negb_true_iff. }
  split; [intros x Hx; by apply Hsub|]. split.
  - intros g Hg. apply elem_of_cons in Hg as [->|Hg].
    + split; [done|]. intros x Hx. split; [by apply Hfr|]. destruct (fr' x) eqn:Ex; [|done]. apply Hsub in Ex as [_ Ex]. congruence.
    + destruct (H2 _ Hg) as [Hg1 Hg2]. split; [done|]. intros x Hx. destruct (Hg2 x Hx) as [Ha Hb]. split; [|done].
      rewrite Hfr1 in Ha. by apply andb_true_iff in Ha as [? _].
  - intros x Hx Hx'. destruct (page_of_frame f x) eqn:Ep; [exists f; split; [by left|done]|].
    destruct (H3 x) as (g & Hg & Hgp); [rewrite Hfr1, Hx, Ep; done|done|]. exists g. split; [by right|done].
Qed.

Definition tot (fs : list (pframe * bool)) : N := foldr (fun x t => (pf_size x.1 + t)%N) 0%N fs.
Lemma map_frames_own fs : forall O s b fr fr' s' r,
  pown O s -> (forall x, O x -> fr x = false) -> tk fr (map fst fs) fr' -> (b + tot fs <= KERNEL_BASE)%N ->
  map_frames true dbg nm s b ma_write_ fs = (s', r) ->
  pown (fun x => O x \/ fr x = true /\ fr' x = false) s' /\
  (forall K, high K -> map_frames true dbg nm (shared_in K s) b ma_write_ fs = (shared_in K s', r)) /\
  (r = Ok tt ->
    (forall k mi, vs_map (p_vs s) !! k = Some mi -> vs_map (p_vs s') !! k = Some mi) /\
    forall x, within b (tot fs) x -> exists k f, vs_map (p_vs s') !! k = Some (mkMI (pf_base f) (pf_size f) ma_write_) /\
      within k (pf_size f) x /\ f ∈ map fst fs).
Proof using Type.
  induction fs as [|[f rf] fs IH]; intros O s b fr fr' s' r Ho Hfree Ht Hb Hs; cbn [map_frames map fst tk tot foldr] in *.
  { subst fr'. injection Hs as <- <-. split; [eapply (pown_mono O); [by left|done]|]. split; [done|]. intros _. split; [done|].
    intros x [H1 H2]. lia. }
  change (foldr (λ (x : pframe * bool) (t : N), (pf_size x.1 + t)%N) 0%N fs) with (tot fs) in *.
  destruct Ht as (Hsz & fr1 & E & Ht). destruct (take_frame_spec _ _ _ _ Hsz E) as (_ & Hf & Hfr & Hfr1).
  destruct (prc_step true dbg nm s (PoMapFrame b f ma_write_ rf)) as [s1 q] eqn:Est.
  assert (b + pf_size f <= KERNEL_BASE)%N as Hb1 by lia.
  assert (forall x, page_of_frame f x = true -> ~ O x) as Hnew. { intros x Hx HO. apply Hfr in Hx. apply Hfree in HO. congruence. }
  destruct (pown_map O s b f ma_write_ rf s1 q Ho Hf eq_refl Hb1 Hnew Est) as (Hq & Ho1 & Hok).
  assert (forall K, high K -> prc_step true dbg nm (shared_in K s) (PoMapFrame b f ma_write_ rf) = (shared_in K s1, q)) as Hview.
  { intros K HK. destruct Ho as (h & I). by destruct (prc_step_low true dbg nm K s (PoMapFrame b f ma_write_ rf) s1 q HK (po_low _ _ _ I) Hb1 Est). }
  destruct (tk_frames _ _ _ Ht) as (Hsub & Hin & Hback).
  assert (forall x, page_of_frame f x = true -> fr x = true /\ fr' x = false) as Hpf.
  { intros x Hx. split; [by apply Hfr|]. destruct (fr' x) eqn:Ex; [|done]. apply Hsub in Ex. rewrite Hfr1, Hx in Ex. by rewrite andb_false_r in Ex. }
  destruct q as [u|e|]; [| |done].
  - assert (forall x, plus O f x -> fr1 x = false) as Hfree1.
    { intros x [Hx|Hx]; rewrite Hfr1; [by rewrite (Hfree _ Hx)|]. rewrite Hx. apply andb_false_r. }
    assert (b + pf_size f + tot fs <= KERNEL_BASE)%N as Hb2 by lia. destruct (IH _ _ _ _ _ _ _ Ho1 Hfree1 Ht Hb2 Hs) as (I1 & I2 & I3). split; [|split].
    + eapply pown_mono; [|exact I1]. cbn beta. intros x [[Hx|Hx]|[Hx Hx']].
      * by left.
      * right. by apply Hpf.
      * right. split; [|done]. rewrite Hfr1 in Hx. by apply andb_true_iff in Hx as [? _].
    + intros K HK. cbn [map_frames]. rewrite (Hview K HK). by apply I2.
    + intros ->. destruct (I3 eq_refl) as [J1 J2]. destruct (Hok ltac:(done)) as [Hm Hk]. split; [auto|].
      intros x [X1 X2]. destruct (N.lt_ge_cases x (b + pf_size f)) as [Hlt|Hge].
      * exists b, f. split; [apply J1; rewrite Hm; apply lookup_insert|]. split; [by split|]. by left.
      * destruct (J2 x) as (k & g & Hg & Hw & Hgin); [split; lia|]. exists k, g. split; [done|]. split; [done|]. by right.
  - injection Hs as <- <-. split; [|split; [|done]].
    + eapply pown_mono; [|exact Ho1]. intros x [Hx|Hx]; [by left|]. right. by apply Hpf.
    + intros K HK. cbn [map_frames]. by rewrite (Hview K HK).
Qed.
End inv.

(** ** The invariant of the machine *)

Section mach.
Context (dbg : bool) (nm : nat).

Record mok (O : nat -> N -> Prop) (m : mach) : Prop := {
  mo_kern : high (mc_kern m);
  mo_prc : forall p s, mc_ps m !! p = Some s -> pown dbg nm (O p) s;
  mo_apart : forall p q x, p <> q -> O p x -> O q x -> False;
  mo_free : forall p x, O p x -> mc_free m x = false }.

Lemma mok_reaches O m p va pa : mok O m -> reaches m p va pa -> O p (pa / BASE)%N.
Proof using Type.
  intros M (s & r & Hs & Ht). destruct (mo_prc _ _ M _ _ Hs) as (h & I).
  unfold user_translate in Ht. destruct (N.leb_spec (2 ^ 48) va) as [|Hva]; [done|]. destruct (mc_kern m !! i4 va); [done|].
  destruct (vs_resolve (p_vs s) va) as [[pa' r']| |] eqn:E; [|done..]. destruct (ma_kernel r'); [done|]. injection Ht as <- <-.
  destruct (C21_bookkeeping _ _ _ (pi_reach _ _ _ _ _ (po_inv _ _ _ _ _ I))) as (_ & B2 & _).
  destruct (B2 _ _ _ Hva E) as (b & mi & Hb & Hw & -> & _). eapply (po_rec _ _ _ _ _ I); [done|]. unfold within in *. lia.
Qed.

Definition set_own (O : nat -> N -> Prop) (p : nat) (O1 : N -> Prop) : nat -> N -> Prop :=
  fun q x => if decide (q = p) then O1 x else O q x.

Lemma mok_put O m p s s' O1 free mem dead :
  mok O m -> mc_ps m !! p = Some s -> pown dbg nm O1 s' ->
  (forall x, O1 x -> O p x \/ mc_free m x = true) -> (forall x, O1 x -> free x = false) ->
  (forall x, free x = true -> mc_free m x = true \/ O p x) ->
  mok (set_own O p O1) (put_prc m p (shared_in (mc_kern m) s') free mem dead) /\
  mc_kern (put_prc m p (shared_in (mc_kern m) s') free mem dead) = mc_kern m /\
  mc_ps (put_prc m p (shared_in (mc_kern m) s') free mem dead) = <[p := s']> (mc_ps m).
Proof using Type.
  intros M Hs Ho H1 H2 H3. unfold put_prc. rewrite shared_shared. cbn [mc_kern mc_ps].
  assert (own_part (mc_kern m) (shared_in (mc_kern m) s') = s') as ->.
  { apply own_shared; [apply M|]. destruct Ho as (h & I). apply I. }
  split; [|done]. split; cbn [mc_kern mc_ps mc_free].
  - apply M.
  - intros q t Hq. unfold set_own. destruct (decide (q = p)) as [->|Hne].
    + apply lookup_lt_Some in Hs. rewrite list_lookup_insert in Hq by done. by injection Hq as <-.
    + rewrite list_lookup_insert_ne in Hq by done. by apply M.
  - intros q q' x Hne. unfold set_own. destruct (decide (q = p)) as [->|], (decide (q' = p)) as [->|]; try done.
    + intros Hx Hx'. destruct (H1 _ Hx) as [Hp|Hf]; [by eapply (mo_apart _ _ M p q')|]. apply (mo_free _ _ M) in Hx'. congruence.
    + intros Hx Hx'. destruct (H1 _ Hx') as [Hp|Hf]; [by eapply (mo_apart _ _ M p q)|]. apply (mo_free _ _ M) in Hx. congruence.
    + by apply (mo_apart _ _ M).
  - intros q x. unfold set_own. destruct (decide (q = p)) as [->|]; [apply H2|]. intros Hx. destruct (free x) eqn:E; [|done].
    apply H3 in E as [E|E]; [apply (mo_free _ _ M) in Hx; congruence|]. exfalso. by eapply (mo_apart _ _ M p q).
Qed.

Lemma zero_frames_out fs : forall mem y, (forall f, f ∈ fs -> ~ in_frame f y) -> foldl zero_frame mem fs y = mem y.
Proof using Type.
  induction fs as [|f fs IH]; intros mem y H; [done|]. cbn [foldl]. rewrite IH by (intros g Hg; apply H; by right).
  unfold zero_frame. destruct (N.leb_spec (pf_base f) y), (N.ltb_spec y (pf_base f + pf_size f)); try done.
  exfalso. apply (H f); [by left|]. by split.
Qed.
Lemma zero_frames_in fs : forall mem y f, f ∈ fs -> in_frame f y -> foldl zero_frame mem fs y = 0%N.
Proof using Type.
  induction fs as [|g fs IH] using rev_ind; intros mem y f Hf Hin; [by apply elem_of_nil in Hf|].
  rewrite foldl_app. cbn [foldl]. unfold zero_frame at 1.
  destruct (N.leb_spec (pf_base g) y), (N.ltb_spec y (pf_base g + pf_size g)); cbn [andb]; try done.
  all: apply elem_of_app in Hf as [Hf|Hf]; [by eapply IH|]; apply elem_of_list_singleton in Hf as ->; unfold in_frame, within in Hin; lia.
Qed.

Lemma tot_sizes l sz : Forall (fun f => pf_size f = sz) (map fst l) -> tot l = (N.of_nat (length l) * sz)%N.
Proof using Type.
  induction l as [|[f b] l IH]; [done|]. cbn [map fst]. intros H. inversion_clear H as [|? ? H1 H2]. cbn [tot foldr fst length].
  fold (tot l). rewrite IH by done. rewrite H1. rewrite Nat2N.inj_succ. lia.
Qed.
Lemma tot_app l1 l2 : tot (l1 ++ l2) = (tot l1 + tot l2)%N.
Proof using Type.
  induction l1 as [|[f b] l1 IH]; [done|]. cbn [app tot foldr fst]. fold (tot (l1 ++ l2)). fold (tot l1). lia.
Qed.

Lemma mach_step_ok O m p c m' r : mok O m -> request_ok m p c -> mach_step dbg nm m p c = Some (m', r) ->
  exists O', mok O' m' /\ mc_kern m' = mc_kern m /\ (forall q, q <> p -> mc_ps m' !! q = mc_ps m !! q) /\
    (forall q y, q <> p -> O q (y / BASE)%N -> mc_mem m' y = mc_mem m y) /\
    match c, r with
    | CMap b _ _, Ok (_, len) => forall x, within b len x -> loads m' p x = Some 0%N
    | _, _ => True
    end.
Proof using Type.
  intros M Hrq. unfold mach_step. destruct (mc_dead m); [done|]. destruct (mc_ps m !! p) as [s|] eqn:Es; [|done].
  pose proof (mo_prc _ _ M _ _ Es) as Ho. pose proof Ho as (h & I). pose proof (mo_kern _ _ M) as HK.
  assert (forall l (s' : prc), (∀ q, q ≠ p → <[p:=s']> l !! q = l !! q)) as Hne by (intros; by rewrite list_lookup_insert_ne).
  assert (forall x, O p x -> mc_free m x = false) as Hfree by (intros; by eapply (mo_free _ _ M)).
  destruct c as [b size mem|b|b size|b id refill|size mem|id|f aff fail|va v|va]; cbn [request_ok] in Hrq.
  - (* map *)
    destruct mem as [[ls bs]|]; [|intros [= <- <-]; by exists O].
    destruct (Nat.eqb_spec (length ls) (N.to_nat (MemModel.size_to_pages size).2)) as [El|]; [|done].
    destruct (Nat.eqb_spec (length bs) (N.to_nat (MemModel.size_to_pages size).1)) as [Eb|]; [|done]. cbn [andb].
    destruct (take_frames (mc_free m) LARGE (map fst ls)) as [fr1|] eqn:T1; [|done].
    destruct (take_frames fr1 BASE (map fst bs)) as [fr2|] eqn:T2; [|done].
    assert (tk (mc_free m) (map fst (ls ++ bs)) fr2) as T.
    { rewrite map_app. eapply tk_app; (eapply take_frames_tk; [|done]); [by right|by left]. }
    assert (b + tot (ls ++ bs) <= KERNEL_BASE)%N as Hb.
    { rewrite tot_app. rewrite (tot_sizes ls LARGE), (tot_sizes bs BASE) by (by eapply take_frames_size). lia. }
    unfold sys_map. rewrite <- El, <- Eb. rewrite (proj2 (Nat.ltb_ge _ _) (le_n (length ls))), (proj2 (Nat.ltb_ge _ _) (le_n (length bs))).
    cbn [orb]. rewrite !firstn_all. fold (tot (ls ++ bs)).
    destruct (map_frames true dbg nm s b ma_write_ (ls ++ bs)) as [s' q] eqn:Em.
    destruct (map_frames_own dbg nm _ (O p) s b (mc_free m) fr2 s' q Ho Hfree T Hb Em) as (Ho' & Hv & Hok).
    rewrite (Hv _ HK).
    destruct (tk_frames _ _ _ T) as (Hsub & Hin & Hback).
    assert (forall dead, mok (set_own O p (fun x => O p x \/ mc_free m x = true /\ fr2 x = false))
      (put_prc m p (shared_in (mc_kern m) s') fr2 (foldl zero_frame (mc_mem m) (map fst (ls ++ bs))) dead) /\
      mc_kern (put_prc m p (shared_in (mc_kern m) s') fr2 (foldl zero_frame (mc_mem m) (map fst (ls ++ bs))) dead) = mc_kern m /\
      mc_ps (put_prc m p (shared_in (mc_kern m) s') fr2 (foldl zero_frame (mc_mem m) (map fst (ls ++ bs))) dead) = <[p := s']> (mc_ps m)) as Hput.
    { intros dead. eapply mok_put; try done.
      - intros x [Hx|[Hx _]]; [by left|by right].
      - intros x [Hx|[_ Hx]]; [|done]. destruct (fr2 x) eqn:Ex; [|done]. apply Hsub in Ex. apply Hfree in Hx. congruence.
      - intros x Hx. left. by apply Hsub. }
    assert (forall q y, q <> p -> O q (y / BASE)%N -> foldl zero_frame (mc_mem m) (map fst (ls ++ bs)) y = mc_mem m y) as Hmem.
    { intros q' y _ Hy. apply zero_frames_out. intros f Hf Hin'. destruct (Hin _ Hf) as [Hf1 Hf2].
      apply (in_frame_page _ _ Hf1) in Hin'. apply Hf2 in Hin' as [Hin' _]. apply (mo_free _ _ M) in Hy. congruence. }
    assert (forall len dead, q = Ok tt -> len = tot (ls ++ bs) -> forall x, within b len x ->
      loads (put_prc m p (shared_in (mc_kern m) s') fr2 (foldl zero_frame (mc_mem m) (map fst (ls ++ bs))) dead) p x = Some 0%N) as Hzero.
    { intros len dead -> -> x Hx. destruct (Hput dead) as (M' & Hk & Hp). unfold loads. rewrite Hp.
      apply lookup_lt_Some in Es as Hlt. rewrite list_lookup_insert by done. unfold user_translate. rewrite Hk.
      assert ((2 ^ 48 <=? x)%N = false) as -> by (apply N.leb_gt; pose proof (low48 KERNEL_BASE (N.le_refl _)); unfold within in Hx; lia).
      rewrite (high_None _ _ HK) by (apply i4_low; unfold within in Hx; lia).
      destruct (Hok eq_refl) as [_ Hr]. destruct (Hr x Hx) as (k & f & Hkf & Hw & Hf).
      destruct Ho' as (h' & I'). destruct (C21_bookkeeping _ _ _ (pi_reach _ _ _ _ _ (po_inv _ _ _ _ _ I'))) as (B1 & _).
      destruct (B1 _ _ _ Hkf Hw) as [_ ->]. cbn [mi_rights granted ma_kernel ma_write_ mi_pa]. f_equal.
      cbn [put_prc mc_mem]. eapply zero_frames_in; [done|]. unfold in_frame, within in *. lia. }
    clear Hin Hback. set (mem' := foldl zero_frame (mc_mem m) (map fst (ls ++ bs))) in *. clearbody mem'.
    assert (forall dead res, (match res with Ok (_, len) => forall x, within b len x ->
        loads (put_prc m p (shared_in (mc_kern m) s') fr2 mem' dead) p x = Some 0%N | _ => True end) ->
      Some (put_prc m p (shared_in (mc_kern m) s') fr2 mem' dead, res) = Some (m', r) ->
      exists O', mok O' m' /\ mc_kern m' = mc_kern m /\ (forall q, q <> p -> mc_ps m' !! q = mc_ps m !! q) /\
        (forall q y, q <> p -> O q (y / BASE)%N -> mc_mem m' y = mc_mem m y) /\
        match r with Ok (_, len) => forall x, within b len x -> loads m' p x = Some 0%N | _ => True end) as Hend.
    { intros dead res Hz H. assert (m' = put_prc m p (shared_in (mc_kern m) s') fr2 mem' dead /\ r = res) as [-> ->] by (split; congruence).
      destruct (Hput dead) as (M' & Hk & Hp).
      eexists. split; [exact M'|]. split; [done|]. split; [rewrite Hp; by apply Hne|]. split; [exact Hmem|]. exact Hz. }
    destruct q as [[]|e|]; [|by apply Hend..].
    destruct (ls ++ bs) as [|[f rf] fs]; [by apply Hend|]. apply Hend. intros x. by apply Hzero.
  - (* unmap *)
    unfold sys_unmap. destruct (prc_step true dbg nm s (PoUnmap b)) as [s' q] eqn:E.
    destruct (prc_step_low true dbg nm _ s (PoUnmap b) s' q HK (po_low _ _ _ _ _ I) Hrq E) as [-> _].
    destruct (pown_unmap dbg nm _ _ _ _ _ Ho Hrq E) as [_ Ho'].
    assert (forall dead, mok (set_own O p (O p)) (put_prc m p (shared_in (mc_kern m) s') (mc_free m) (mc_mem m) dead) /\
      mc_kern (put_prc m p (shared_in (mc_kern m) s') (mc_free m) (mc_mem m) dead) = mc_kern m /\
      mc_ps (put_prc m p (shared_in (mc_kern m) s') (mc_free m) (mc_mem m) dead) = <[p := s']> (mc_ps m)) as Hput.
    { intros dead. eapply mok_put; try done; intros; by left. }
    intros H. exists (set_own O p (O p)).
    destruct q as [[ | | |va sz [|c cs]| | | ]|e|]; injection H as <- <-; destruct (Hput (is_panic (Panic (A := N * N)))) as (M1 & K1 & P1);
      destruct (Hput (is_panic (Ok (0%N, 0%N)))) as (M2 & K2 & P2); cbn [is_panic] in *;
      (split; [done|]; split; [done|]; split; [by rewrite ?P1, ?P2; apply Hne|]; done).
  - done.
  - (* map by id *)
    unfold sys_map_frame_id. destruct (prc_step true dbg nm s (PoMapId b id ma_frame_id refill)) as [s' q] eqn:E.
    assert (op_low s (PoMapId b id ma_frame_id refill)) as Hlw.
    { intros f k Hi. assert (reg h !! id = Some f) as Hr by (by rewrite (pi_reg _ _ _ _ _ (po_inv _ _ _ _ _ I)), Hi).
      destruct (pi_fok _ _ _ _ _ (po_inv _ _ _ _ _ I) _ _ Hr) as [[-> |[-> _]] _]; unfold LARGE in Hrq; lia. }
    destruct (prc_step_low true dbg nm _ s (PoMapId b id ma_frame_id refill) s' q HK (po_low _ _ _ _ _ I) Hlw E) as [-> _].
    destruct (pown_id dbg nm _ _ _ _ ma_frame_id _ _ _ Ho eq_refl Hrq E) as [_ Ho'].
    assert (forall dead, mok (set_own O p (O p)) (put_prc m p (shared_in (mc_kern m) s') (mc_free m) (mc_mem m) dead) /\
      mc_kern (put_prc m p (shared_in (mc_kern m) s') (mc_free m) (mc_mem m) dead) = mc_kern m /\
      mc_ps (put_prc m p (shared_in (mc_kern m) s') (mc_free m) (mc_mem m) dead) = <[p := s']> (mc_ps m)) as Hput.
    { intros dead. eapply mok_put; try done; intros; by left. }
    intros H. exists (set_own O p (O p)).
    destruct q as [[ | | | | | | ]|e|]; injection H as <- <-; destruct (Hput (is_panic (Panic (A := N * N)))) as (M1 & K1 & P1);
      destruct (Hput (is_panic (Ok (0%N, 0%N)))) as (M2 & K2 & P2); cbn [is_panic] in *;
      (split; [done|]; split; [done|]; split; [by rewrite ?P1, ?P2; apply Hne|]; done).
  - (* allocate *)
    unfold sys_alloc_physical. destruct mem as [f|].
    + destruct (negb (size =? BASE)%N && negb (size =? LARGE)%N) eqn:Esz; [done|].
      assert (page_sized true size) as Hsz.
      { apply andb_false_iff in Esz as [Esz|Esz]; apply negb_false_iff, N.eqb_eq in Esz; [by left|by right]. }
      destruct (take_frame (mc_free m) size f) as [fr|] eqn:T; [|done].
      destruct (take_frame_spec _ _ _ _ Hsz T) as (_ & Hf & Hfr & Hfr1).
      destruct (prc_step true dbg nm s (PoAddFrame f)) as [s' q] eqn:E.
      destruct (prc_step_low true dbg nm _ s (PoAddFrame f) s' q HK (po_low _ _ _ _ _ I) Logic.I E) as [-> _].
      assert (forall x, page_of_frame f x = true -> ~ O p x) as Hnew by (intros x Hx HO; apply Hfr in Hx; apply Hfree in HO; congruence).
      destruct (pown_add dbg nm _ _ _ _ _ Ho Hf Hnew E) as (_ & Ho' & _).
      assert (forall dead, mok (set_own O p (plus (O p) f)) (put_prc m p (shared_in (mc_kern m) s') fr (mc_mem m) dead) /\
        mc_kern (put_prc m p (shared_in (mc_kern m) s') fr (mc_mem m) dead) = mc_kern m /\
        mc_ps (put_prc m p (shared_in (mc_kern m) s') fr (mc_mem m) dead) = <[p := s']> (mc_ps m)) as Hput.
      { intros dead. eapply mok_put; try done.
        - intros x [Hx|Hx]; [by left|right; by apply Hfr].
        - intros x [Hx|Hx]; rewrite Hfr1; [by rewrite Hfree|]. rewrite Hx. apply andb_false_r.
        - intros x Hx. rewrite Hfr1 in Hx. left. by apply andb_true_iff in Hx as [? _]. }
      intros H. exists (set_own O p (plus (O p) f)).
      destruct q as [[ | | | | | | ]|e|]; injection H as <- <-; destruct (Hput (is_panic (Panic (A := N * N)))) as (M1 & K1 & P1);
        destruct (Hput (is_panic (Ok (0%N, 0%N)))) as (M2 & K2 & P2); cbn [is_panic] in *;
        (split; [done|]; split; [done|]; split; [by rewrite ?P1, ?P2; apply Hne|]; done).
    + assert (forall dead, mok (set_own O p (O p)) (put_prc m p (shared_in (mc_kern m) s) (mc_free m) (mc_mem m) dead) /\
        mc_kern (put_prc m p (shared_in (mc_kern m) s) (mc_free m) (mc_mem m) dead) = mc_kern m /\
        mc_ps (put_prc m p (shared_in (mc_kern m) s) (mc_free m) (mc_mem m) dead) = <[p := s]> (mc_ps m)) as Hput.
      { intros dead. eapply mok_put; try done; intros; by left. }
      destruct (Hput false) as (M2 & K2 & P2).
      destruct (negb (size =? BASE)%N && negb (size =? LARGE)%N); intros [= <- <-]; cbn [is_panic]; exists (set_own O p (O p));
        (split; [done|]; split; [done|]; split; [by rewrite P2; apply Hne|]; done).
  - (* release *)
    unfold sys_release_physical. destruct (prc_step true dbg nm s (PoRelease id)) as [s' q] eqn:E.
    destruct (prc_step_low true dbg nm _ s (PoRelease id) s' q HK (po_low _ _ _ _ _ I) Logic.I E) as [-> _].
    pose proof (pown_release dbg nm _ _ _ _ _ Ho E) as Hr. destruct q as [[ | | | | | |f]|e|]; try done.
    + destruct Hr as (Hf & HO & Ho' & _).
      assert ((pf_size f =? BASE)%N || (pf_size f =? LARGE)%N = true) as ->.
      { destruct Hf as [Hf _]. apply page_size_cases in Hf as [-> | ->]; by vm_compute. }
      intros [= <- <-]. cbn [is_panic].
      destruct (mok_put O m p s s' (fun x => O p x /\ page_of_frame f x = false) (give_frame (mc_free m) f) (mc_mem m) false M Es Ho') as (M2 & K2 & P2).
      * intros x [Hx _]. by left.
      * intros x [Hx Hx']. unfold give_frame. by rewrite (Hfree _ Hx), Hx'.
      * intros x Hx. unfold give_frame in Hx. apply orb_true_iff in Hx as [Hx|Hx]; [by left|right; by apply HO].
      * eexists. split; [exact M2|]. split; [done|]. split; [rewrite P2; by apply Hne|]. done.
    + subst s'. intros [= <- <-]. cbn [is_panic].
      destruct (mok_put O m p s s (O p) (mc_free m) (mc_mem m) false M Es Ho) as (M2 & K2 & P2); [by left|done|by left|].
      eexists. split; [exact M2|]. split; [done|]. split; [rewrite P2; by apply Hne|]. done.
  - (* executors *)
    destruct Hrq as [Haff Hoff]. specialize (Hoff _ Es).
    destruct (take_frame (mc_free m) LARGE f) as [fr|] eqn:T; [|done].
    assert (page_sized true LARGE) as Hsz by (by right).
    destruct (take_frame_spec _ _ _ _ Hsz T) as (Esz & Hf & Hfr & Hfr1).
    destruct (alloc_executors true s f aff fail) as [s' q] eqn:E.
    assert (prc_step true dbg nm s (PoDisp f aff fail) = (s', rmap PrCreated q)) as Hst by (cbn [prc_step]; by rewrite E).
    assert (op_low s (PoDisp f aff fail)) as Hlw by (cbn [op_low]; by rewrite Esz).
    destruct (prc_step_low true dbg nm _ s (PoDisp f aff fail) s' _ HK (po_low _ _ _ _ _ I) Hlw Hst) as [Hv _].
    cbn [prc_step] in Hv. destruct (alloc_executors true (shared_in (mc_kern m) s) f aff fail) as [s1 q1].
    assert (s1 = shared_in (mc_kern m) s') as -> by congruence.
    assert (forall x, page_of_frame f x = true -> ~ O p x) as Hnew by (intros x Hx HO; apply Hfr in Hx; apply Hfree in HO; congruence).
    pose proof (pown_exec dbg nm _ _ _ _ _ _ _ Ho Hf Esz Haff Hoff Hnew E) as Ho'.
    intros [= <- <-].
    destruct (mok_put O m p s s' (plus (O p) f) fr (zero_frame (mc_mem m) f) (is_panic q1) M Es Ho') as (M2 & K2 & P2).
    + intros x [Hx|Hx]; [by left|right; by apply Hfr].
    + intros x [Hx|Hx]; rewrite Hfr1; [by rewrite Hfree|]. rewrite Hx. apply andb_false_r.
    + intros x Hx. rewrite Hfr1 in Hx. left. by apply andb_true_iff in Hx as [? _].
    + eexists. split; [exact M2|]. split; [done|]. split; [rewrite P2; by apply Hne|]. split; [|done].
      intros q' y _ Hy. apply (zero_frames_out [f]). intros g Hg Hin. apply elem_of_list_singleton in Hg as ->.
      apply (in_frame_page _ _ Hf), Hfr in Hin. apply (mo_free _ _ M) in Hy. congruence.
  - (* store *)
    destruct (user_translate m s va) as [[pa rt]|] eqn:Et; [|intros [= <- <-]; by exists O].
    destruct (ma_write rt); [|intros [= <- <-]; by exists O]. intros [= <- <-]. exists O. cbn [mc_kern mc_ps mc_mem].
    split; [split; apply M|]. split; [done|]. split; [done|]. split; [|done]. intros q y Hq Hy.
    destruct (N.eqb_spec y pa) as [->|]; [|done]. exfalso. apply (mo_apart _ _ M q p (pa / BASE)%N); [done|done|].
    eapply (mok_reaches _ _ _ va); [done|]. by exists s, rt.
  - destruct (user_translate m s va) as [[pa rt]|]; intros [= <- <-]; by exists O.
Qed.

Lemma started_ok m : started dbg m -> exists O, mok O m.
Proof using Type.
  intros [Hal Hk Hp Ha Hf].
  exists (fun p x => exists s b mi, mc_ps m !! p = Some s /\ vs_map (p_vs s) !! b = Some mi /\ page_of_frame (mkPF (mi_pa mi) (mi_size mi)) x = true).
  assert (forall p s b mi x, mc_ps m !! p = Some s -> vs_map (p_vs s) !! b = Some mi -> page_of_frame (mkPF (mi_pa mi) (mi_size mi)) x = true ->
    exists va r, (va < 2 ^ 48)%N /\ vs_resolve (p_vs s) va = Ok ((x * BASE)%N, r)) as Hx.
  { intros p s b mi x Hs Hb Hpg. destruct (Hp _ _ Hs) as (vs & -> & [R _] & _). cbn [prc_init p_vs] in *.
    pose proof (rec_pages dbg (prc_init vs) b mi R Hb) as Hfr.
    assert (x = (x * BASE) / BASE)%N as Ex by (by rewrite N.div_mul). rewrite Ex in Hpg. apply (in_frame_page _ _ Hfr) in Hpg.
    unfold in_frame, within in Hpg. cbn [pf_base pf_size] in Hpg.
    destruct (C21_bookkeeping _ _ _ R) as (B1 & _). destruct (B1 b mi (b + (x * BASE - mi_pa mi))%N Hb) as [H48 Hr]; [unfold within; lia|].
    eexists _, _. split; [exact H48|]. rewrite Hr. do 2 f_equal. lia. }
  split.
  - done.
  - intros p s Hs. destruct (Hp _ _ Hs) as (vs & -> & H0 & Hl). exists []. split.
    + by apply pinv_init.
    + intros b mi i g y _ _ Hg. unfold reg in Hg. cbn [foldl] in Hg. by rewrite lookup_empty in Hg.
    + intros b mi Hb y Hy. exists (prc_init vs), b, mi. split; [done|]. split; [done|].
      apply in_frame_page; [|done]. by apply (rec_pages dbg (prc_init vs) b mi (proj1 H0)).
    + intros i g Hg. unfold reg in Hg. cbn [foldl] in Hg. by rewrite lookup_empty in Hg.
    + exact Hl.
    + by vm_compute.
  - intros p q x Hne (s & b & mi & Hs & Hb & Hpg) (t & b' & mi' & Ht & Hb' & Hpg').
    destruct (Hx _ _ _ _ _ Hs Hb Hpg) as (va & r & H48 & Hr). destruct (Hx _ _ _ _ _ Ht Hb' Hpg') as (va' & r' & H48' & Hr').
    by apply (Ha p q s t va va' _ _ _ _ Hne Hs Ht H48 H48' Hr Hr').
  - intros p x (s & b & mi & Hs & Hb & Hpg). destruct (Hx _ _ _ _ _ Hs Hb Hpg) as (va & r & H48 & Hr).
    apply (Hf _ _ _ _ _ Hs H48) in Hr. change 4096%N with BASE in Hr. by rewrite N.div_mul in Hr.
Qed.

Lemma step_loads O m p c m' r q va : mok O m -> request_ok m p c -> mach_step dbg nm m p c = Some (m', r) -> q <> p ->
  loads m' q va = loads m q va /\ forall pa, reaches m' q va pa <-> reaches m q va pa.
Proof using Type.
  intros M Hr H Hq. destruct (mach_step_ok _ _ _ _ _ _ M Hr H) as (O' & _ & Hk & Hp & Hm & _).
  assert (forall s, user_translate m' s va = user_translate m s va) as Ht by (intros s; unfold user_translate; by rewrite Hk).
  unfold loads, reaches. rewrite (Hp _ Hq). split.
  - destruct (mc_ps m !! q) as [s|] eqn:Es; [|done]. rewrite Ht. destruct (user_translate m s va) as [[pa rt]|] eqn:Et; [|done].
    f_equal. eapply Hm; [exact Hq|]. eapply (mok_reaches _ _ _ va); [done|]. by exists s, rt.
  - intros pa. split; intros (s & rt & Es & Et); exists s, rt; (split; [done|]); by rewrite ?Ht in *.
Qed.
Lemma mach_run_ok l : forall O m m' rs, mok O m -> requests_ok dbg nm m l -> mach_run dbg nm m l = Some (m', rs) ->
  (exists O', mok O' m') /\ mc_kern m' = mc_kern m /\
  forall q va, (forall c, (q, c) ∉ l) -> loads m' q va = loads m q va /\ forall pa, reaches m' q va pa <-> reaches m q va pa.
Proof using Type.
  induction l as [|[p c] l IH]; intros O m m' rs M Hr H; cbn [mach_run requests_ok] in *.
  { injection H as <- <-. split; [by exists O|]. done. }
  destruct Hr as [Hr1 Hr2]. destruct (mach_step dbg nm m p c) as [[m1 r]|] eqn:E; [|done].
  destruct (mach_run dbg nm m1 l) as [[m2 rs']|] eqn:E2; [|done]. injection H as <- <-.
  destruct (mach_step_ok _ _ _ _ _ _ M Hr1 E) as (O1 & M1 & Hk & _). destruct (IH _ _ _ _ M1 Hr2 E2) as (I1 & I2 & I3).
  split; [done|]. split; [congruence|]. intros q va Hq.
  assert (q <> p) as Hne by (intros ->; apply (Hq c); by left).
  destruct (I3 q va) as [J1 J2]; [intros c' Hc'; apply (Hq c'); by right|].
  destruct (step_loads _ _ _ _ _ _ q va M Hr1 E Hne) as [K1 K2]. split; [congruence|]. intros pa. by rewrite J2, K2.
Qed.
End mach.
