(** The rings of the receive queue follow the specification. *)
From Verif Require Import Base NtxProofs NrxModel NrxSpec.
Local Arguments Nat.modulo : simpl never.
Local Arguments Nat.div : simpl never.

(** ** Rings with generation bits *)
Section gring.
Context {A : Type} (getg : A -> bool) (setg : bool -> A -> A) (getset : forall g a, getg (setg g a) = g).
Context (n : nat) (Hn : 0 < n).

Definition gok (ring : list A) (D : nat) (St : list A) : Prop :=
  (forall j s, St !! j = Some s -> ring !! ((D + j) mod n) = Some (setg (gen n (D + j)) s)) /\
  (forall j, length St <= j < n -> exists d, ring !! ((D + j) mod n) = Some d /\ getg d = negb (gen n (D + j))).

Lemma gok_push ring D St s : length ring = n -> length St < n -> gok ring D St ->
  gok (<[(D + length St) mod n := setg (gen n (D + length St)) s]> ring) D (St ++ [s]).
Proof using Hn.
  intros HL Hlt [X B]. pose proof (Nat.mod_upper_bound (D + length St) n ltac:(lia)) as Bd. split.
  - intros j s' Hj. apply lookup_app_Some in Hj as [Hj|[Hle Hj]].
    + pose proof (lookup_lt_Some _ _ _ Hj). rewrite list_lookup_insert_ne; [by apply X|]. apply mod_ne; lia.
    + apply list_lookup_singleton_Some in Hj as [Hz <-]. replace j with (length St) by lia.
      rewrite list_lookup_insert; [done|lia].
  - intros j Hj. rewrite app_length in Hj. cbn in Hj. rewrite list_lookup_insert_ne; [apply B; lia|]. apply mod_ne; lia.
Qed.

Lemma gok_pop ring D s St : gok ring D (s :: St) ->
  ring !! (D mod n) = Some (setg (gen n D) s) /\ gok ring (S D) St.
Proof using Hn getset.
  intros [X B]. pose proof (X 0 s eq_refl) as E0. rewrite Nat.add_0_r in E0. split; [done|]. split.
  - intros j s' Hj. pose proof (X (S j) s' Hj) as E. by replace (S D + j) with (D + S j) by lia.
  - intros j Hj. destruct (decide (S j = n)) as [Q|Q].
    + replace (S D + j) with (D + n) by lia. rewrite mod_lap by lia. exists (setg (gen n D) s). split; [done|].
      rewrite getset, gen_lap by lia. by rewrite negb_involutive.
    + replace (S D + j) with (D + S j) by lia. apply B. cbn. lia.
Qed.

Lemma gok_none ring D : gok ring D [] -> exists d, ring !! (D mod n) = Some d /\ getg d = negb (gen n D).
Proof using Hn. intros [X B]. destruct (B 0) as (d & E & G); [cbn; lia|]. rewrite Nat.add_0_r in *. eauto. Qed.
End gring.

Definition rsetg (g : bool) (d : rxdesc) : rxdesc := mkRxd (r_addr d) (r_len d) (r_body d) g.
Definition csetg (g : bool) (e : rxcomp) : rxcomp := mkRxc (c_idx e) (c_len e) (c_sop e) (c_eop e) (c_err e) g.

Fixpoint encr (l : list rseg) (i : nat) : list rxdesc :=
  match l with
  | [] => []
  | (a, len) :: r => mkRxd a (len mod 2 ^ 14)%N (negb (Nat.even i)) false :: encr r (S i)
  end.
Lemma encr_length l i : length (encr l i) = length l.
Proof. revert i. induction l as [|[a b] l IH]; intros i; [done|]. cbn. by rewrite IH. Qed.
Definition rstream (f : list rchain) : list rxdesc := concat (map (fun c => encr c 0) f).
Lemma rstream_app f f' : rstream (f ++ f') = rstream f ++ rstream f'.
Proof. unfold rstream. by rewrite map_app, concat_app. Qed.
Lemma rstream_length f : Forall rchain_ok f -> length (rstream f) = 2 * length f.
Proof.
  induction 1 as [|c f [H _] _ IH]; [done|]. unfold rstream in *. cbn [map concat]. rewrite app_length, encr_length, IH. cbn. lia.
Qed.

Lemma mod14 l : (1 <= l <= 16383)%N -> (l mod 2 ^ 14)%N = l.
Proof. intros. apply N.mod_small. change (2 ^ 14)%N with 16384%N. lia. Qed.

Lemma two_form c : rchain_ok c -> exists a0 l0 a1 l1, c = [(a0, l0); (a1, l1)] /\ (1 <= l0 <= 16383)%N /\ (1 <= l1 <= 16383)%N.
Proof.
  intros [H F]. destruct c as [|[a0 l0] [|[a1 l1] [|]]]; try done. exists a0, l0, a1, l1. split; [done|].
  apply Forall_cons in F as [F1 F2]. apply Forall_cons in F2 as [F2 _]. done.
Qed.

Section inv.
Context (n : nat) (Hn : 2 <= n) (Hn2 : n <= 2048).

Notation nl l := (N.to_nat l).

(** Completions of a packet. *)
Definition gotone (m : rxmem) (g : rchain * list N * bool) (es : list rxcomp) : Prop :=
  let '(c, p, ok) := g in
  exists a0 l0 a1 l1, c = [(a0, l0); (a1, l1)] /\ p <> [] /\
  ((exists i, es = [mkRxc i (N.of_nat (Nat.min (length p) (nl l0))) true true (negb ok) false] /\ i < n /\
      (ok = true -> length p <= nl l0 /\ mem_read m a0 = p)) \/
   (exists i i', es = [mkRxc i l0 true false false false;
                       mkRxc i' (N.of_nat (Nat.min (length p - nl l0) (nl l1))) false true (negb ok) false] /\ i < n /\ i' < n /\
      nl l0 < length p /\
      (ok = true -> length p <= nl l0 + nl l1 /\ mem_read m a0 = take (nl l0) p /\ mem_read m a1 = drop (nl l0) p))).

Definition leadok (lead : list rxdesc) : Prop := lead = [] \/ exists d, lead = [d] /\ r_body d = true /\ r_gen d = false.

Definition curok (cur : option rxcur) (lead : list rxdesc) (cc : list rchain) (Lp : list rxcomp) (m : rxmem) : Prop :=
  match cur with
  | None => cc = [] /\ Lp = [] /\ leadok lead
  | Some (CSeek p) => p <> [] /\ cc = [] /\ Lp = [] /\ leadok lead
  | Some (CFill p rest idx len sop) =>
      p <> [] /\ idx < n /\ exists a0 l0 a1 l1, cc = [[(a0, l0); (a1, l1)]] /\
      if sop then rest = drop (nl l0) p /\ len = N.of_nat (Nat.min (length p) (nl l0)) /\
        lead = [mkRxd a1 l1 true false] /\ Lp = [] /\ mem_read m a0 = take (nl l0) p
      else rest = drop (nl l0 + nl l1) p /\ len = N.of_nat (Nat.min (length p - nl l0) (nl l1)) /\ nl l0 < length p /\
        lead = [] /\ (exists i0, i0 < n /\ Lp = [mkRxc i0 l0 true false false false]) /\
        mem_read m a0 = take (nl l0) p /\ mem_read m a1 = take (nl l1) (drop (nl l0) p)
  end.

Definition addrs (f : list rchain) : list N := concat (map (map fst) f).
Definition pend (q : rxq) : list rxdesc := match k_enq q with None => [] | Some (_, rest, i) => encr rest i end.
Definition chains (got : list (rchain * list N * bool)) : list rchain := map (fun g => g.1.1) got.
Definition all (got : list (rchain * list N * bool)) (cc fr : list rchain) : list rchain := chains got ++ cc ++ fr.

Record rinv (q : rxq) (v : rxdev) (P D K : nat) (St lead : list rxdesc) (Ls : list (list rxcomp)) (Lp : list rxcomp)
  (got : list (rchain * list N * bool)) (cc fr : list rchain) : Prop := mkRinv {
  R_ring : length (k_ring q) = n;
  R_comp : length (k_comp q) = n;
  R_next : d_next v = D mod n;
  R_dgen : d_gen v = gen n D;
  R_head : k_head q = (D + length St) mod n;
  R_gen : k_gen q = gen n (D + length St);
  R_tail : k_tail q = K mod n;
  R_cgen : k_cgen q = gen n K;
  R_cnext : d_cnext v = (K + length (concat Ls ++ Lp)) mod n;
  R_dcgen : d_cgen v = gen n (K + length (concat Ls ++ Lp));
  R_rok : gok r_gen rsetg n (k_ring q) D St;
  R_cok : gok c_gen csetg n (k_comp q) K (concat Ls ++ Lp);
  R_Z : lead ++ rstream fr = St ++ pend q;
  R_enq : match k_enq q with
          | None => k_infl q = all got cc fr
          | Some (c, rest, i) => all got cc fr = k_infl q ++ [c] /\ rest = drop i c /\ i <= 2
          end;
  R_ok : Forall rchain_ok (all got cc fr);
  R_cap : 2 * length (all got cc fr) < n;
  R_nodup : NoDup (addrs (all got cc fr));
  R_cur : curok (d_cur v) lead cc Lp (d_mem v);
  R_got : Forall2 (gotone (d_mem v)) got Ls;
  R_pos : D + length St + length (pend q) = 2 * (P + length (all got cc fr)) }.

Lemma gotone_len m g es : gotone m g es -> 1 <= length es <= 2.
Proof. destruct g as [[c p] ok]. intros (a0 & l0 & a1 & l1 & _ & _ & [(i & -> & _)|(i & i' & -> & _)]); cbn; lia. Qed.
Lemma got_len m got Ls : Forall2 (gotone m) got Ls -> length (concat Ls) <= 2 * length got.
Proof. induction 1 as [|g es got Ls H _ IH]; [done|]. apply gotone_len in H. cbn [concat length]. rewrite app_length. lia. Qed.
Lemma cur_len cur lead cc Lp m : curok cur lead cc Lp m -> length Lp <= length cc /\ length lead <= 1.
Proof.
  unfold curok, leadok. intros H.
  destruct cur as [[p|p rest idx len [|]]|].
  - destruct H as (_ & -> & -> & [-> | (d & -> & _)]); cbn; lia.
  - destruct H as (_ & _ & a0 & l0 & a1 & l1 & -> & _ & _ & -> & -> & _). cbn; lia.
  - destruct H as (_ & _ & a0 & l0 & a1 & l1 & -> & _ & _ & _ & -> & (i0 & _ & ->) & _). cbn; lia.
  - destruct H as (-> & -> & [-> | (d & -> & _)]); cbn; lia.
Qed.
Lemma all_length got cc fr : length (all got cc fr) = length got + length cc + length fr.
Proof. unfold all, chains. rewrite !app_length, map_length. lia. Qed.

Lemma r_pos : 0 < n.
Proof. lia. Qed.

(** The card sees the next descriptor. *)
Lemma rfetch q v P D K St lead Ls Lp got cc fr : rinv q v P D K St lead Ls Lp got cc fr ->
  rdev_fetch q v = match St with [] => None | s :: _ => Some (rsetg (gen n D) s) end.
Proof.
  intros I. pose proof r_pos. unfold rdev_fetch.
  rewrite (R_next _ _ _ _ _ _ _ _ _ _ _ _ I), (R_dgen _ _ _ _ _ _ _ _ _ _ _ _ I).
  pose proof (R_rok _ _ _ _ _ _ _ _ _ _ _ _ I) as G. destruct St as [|s St].
  - destruct (gok_none r_gen rsetg n ltac:(lia) _ _ G) as (d & -> & ->). by destruct (gen n D).
  - destruct (gok_pop r_gen rsetg ltac:(done) n ltac:(lia) _ _ _ _ G) as [-> _]. cbn. by rewrite eqb_reflx.
Qed.

Lemma mem_ne m a b x : a <> b -> mem_read ((b, x) :: m) a = mem_read m a.
Proof. intros H. cbn. by destruct (N.eqb_spec a b). Qed.
Lemma mem_eq m a x : mem_read ((a, x) :: m) a = x.
Proof. cbn. by rewrite N.eqb_refl. Qed.

Lemma got_mem m got Ls a x : a ∉ addrs (chains got) -> Forall2 (gotone m) got Ls -> Forall2 (gotone ((a, x) :: m)) got Ls.
Proof.
  intros Ha H. revert Ha. induction H as [|g es got Ls H H' IH]; intros Ha; [constructor|].
  constructor.
  - destruct g as [[c p] ok]. destruct H as (a0 & l0 & a1 & l1 & -> & Hp & H).
    assert (a0 <> a /\ a1 <> a) as [N0 N1].
    { unfold addrs, chains in Ha. cbn in Ha. apply not_elem_of_cons in Ha as [? Ha]. apply not_elem_of_cons in Ha as [? Ha]. done. }
    exists a0, l0, a1, l1. split; [done|]. split; [done|].
    rewrite (mem_ne m a0), (mem_ne m a1) by done. exact H.
  - apply IH. unfold addrs, chains in *. cbn [map concat] in Ha. by apply not_elem_of_app in Ha as [_ Ha].
Qed.

Notation RI := rinv.

Lemma addrs_app f f' : addrs (f ++ f') = addrs f ++ addrs f'.
Proof. unfold addrs. by rewrite map_app, concat_app. Qed.

Lemma Z_len q v P D K St lead Ls Lp got cc fr : RI q v P D K St lead Ls Lp got cc fr ->
  length St + length (pend q) = length lead + 2 * length fr.
Proof.
  intros I. pose proof (R_Z _ _ _ _ _ _ _ _ _ _ _ _ I) as Z. apply (f_equal length) in Z. rewrite !app_length in Z.
  rewrite rstream_length in Z; [lia|]. pose proof (R_ok _ _ _ _ _ _ _ _ _ _ _ _ I) as O. unfold all in O.
  rewrite !stdpp.list.Forall_app in O. tauto.
Qed.

Lemma ri_start q v P D K St lead Ls Lp got cc fr c q' es : RI q v P D K St lead Ls Lp got cc fr -> k_enq q = None -> rchain_ok c ->
  rx_enq_start q c = (q', es) ->
  (es = [RvEnq c false] /\ q' = q /\ rx_capacity q - rx_len q < 2) \/
  (es = [RvEnq c true] /\ k_enq q' = Some (c, c, 0) /\
   (2 * S (length (all got cc fr)) < n -> NoDup (map fst c) ->
    Forall (fun d => forall a, a ∈ map fst c -> a ∉ map fst d) (all got cc fr) ->
    RI q' v P D K St lead Ls Lp got cc (fr ++ [c]))).
Proof.
  intros I E C. destruct C as [C2 CF] eqn:EC. unfold rx_enq_start.
  destruct (Nat.ltb_spec (rx_capacity q - rx_len q) (length c)) as [L|L]; [intros [= <- <-]; left; rewrite C2 in L; done|].
  rewrite C2. change (2 =? 2) with true. intros [= <- <-]. right. split; [done|]. split; [done|].
  intros Hcap Hnd Hdis.
  assert (EA : all got cc (fr ++ [c]) = all got cc fr ++ [c]) by by unfold all; rewrite !app_assoc.
  pose proof (Z_len _ _ _ _ _ _ _ _ _ _ _ _ I) as ZL.
  destruct I. unfold pend in *. rewrite E in *.
  constructor; cbn [k_ring k_comp k_gen k_cgen k_tail k_head k_infl k_enq]; unfold pend; cbn [k_enq]; rewrite ?EA; try done.
  - rewrite rstream_app. unfold rstream at 2. cbn [map concat]. rewrite app_nil_r, app_assoc, R_Z0, app_nil_r. done.
  - rewrite R_enq0. split; [done|]. split; [done|lia].
  - apply Forall_app. split; [done|]. by apply stdpp.list.Forall_singleton.
  - rewrite app_length. cbn. lia.
  - rewrite addrs_app. apply NoDup_app. split; [done|]. split.
    + intros a Ha Hb. unfold addrs in Hb. cbn [map concat] in Hb. rewrite app_nil_r in Hb.
      unfold addrs in Ha. apply elem_of_list_In, in_concat in Ha as (x & Hx & Ha). apply in_map_iff in Hx as (d & <- & Hd).
      rewrite Forall_forall in Hdis. exact (Hdis d (proj2 (elem_of_list_In _ _) Hd) a Hb (proj2 (elem_of_list_In _ _) Ha)).
    + unfold addrs. cbn [map concat]. by rewrite app_nil_r.
  - rewrite app_length, encr_length. cbn [length] in *. lia.
Qed.

Lemma ri_step q v P D K St lead Ls Lp got cc fr q' es : RI q v P D K St lead Ls Lp got cc fr ->
  rx_enq_step q = Some (q', es) ->
  exists c rest i, k_enq q = Some (c, rest, i) /\
  ((es = [] /\ k_enq q' <> None /\ exists St', RI q' v P D K St' lead Ls Lp got cc fr) \/
   (es = [RvRet] /\ k_enq q' = None /\ RI q' v P D K St lead Ls Lp got cc fr)).
Proof.
  intros I. pose proof r_pos as Hp. unfold rx_enq_step. pose proof (Z_len _ _ _ _ _ _ _ _ _ _ _ _ I) as ZL.
  destruct (k_enq q) as [[[c rest] i]|] eqn:E; [|done].
  pose proof (R_enq _ _ _ _ _ _ _ _ _ _ _ _ I) as Q. rewrite E in Q. destruct Q as (QA & Qr & Qi).
  destruct rest as [|[addr len] rest].
  - intros [= <- <-]. exists c, [], i. split; [done|]. right. split; [done|]. split; [done|].
    destruct I. unfold pend in *. rewrite E in *. constructor; cbn [k_ring k_comp k_gen k_cgen k_tail k_head k_infl k_enq]; unfold pend; cbn [k_enq]; first [done|by rewrite QA].
  - intros [= <- <-]. exists c, ((addr, len) :: rest), i. split; [done|]. left. split; [done|]. split; [done|].
    set (s := mkRxd addr (len mod 2 ^ 14)%N (negb (Nat.even i)) false). exists (St ++ [s]).
    assert (LSt : length St < n).
    { unfold pend in ZL. rewrite E in ZL. cbn [encr length] in ZL.
      pose proof (R_cap _ _ _ _ _ _ _ _ _ _ _ _ I) as Cp. rewrite all_length in Cp.
      destruct (cur_len _ _ _ _ _ (R_cur _ _ _ _ _ _ _ _ _ _ _ _ I)) as [_ C2]. lia. }
    assert (Ld : i < 2 /\ drop (S i) c = rest).
    { split; [|by rewrite <- Nat.add_1_r, <- drop_drop, <- Qr].
      assert (O : rchain_ok c). { pose proof (R_ok _ _ _ _ _ _ _ _ _ _ _ _ I) as O. rewrite QA in O. apply Forall_app in O as [_ O]. by inversion O. }
      destruct O as [O _]. assert (X : length (drop i c) = S (length rest)) by by rewrite <- Qr. rewrite drop_length, O in X. lia. }
    destruct I. unfold pend in *. rewrite E in *. cbn [encr length] in *.
    constructor; cbn [k_ring k_comp k_gen k_cgen k_tail k_head k_infl k_enq]; unfold pend; cbn [k_enq]; try done.
    + by rewrite insert_length.
    + rewrite app_length. cbn [length]. rewrite Nat.add_1_r, Nat.add_succ_r, mod_S by lia. by rewrite R_head0, R_ring0.
    + rewrite app_length. cbn [length]. rewrite Nat.add_1_r, Nat.add_succ_r, gen_S by lia. by rewrite R_head0, R_ring0, R_gen0.
    + pose proof (gok_push r_gen rsetg n Hp (k_ring q) D St s R_ring0 LSt R_rok0) as G. rewrite R_head0, R_gen0. exact G.
    + rewrite R_Z0. by rewrite <- app_assoc.
    + destruct Ld as [L1 L2]. split; [done|]. split; [by rewrite L2|lia].
    + rewrite app_length. cbn [length]. lia.
Qed.

Definition busy (q : rxq) : bool := match k_enq q with Some _ => true | None => false end.
Definition absr (q : rxq) (got : list (rchain * list N * bool)) (cc fr : list rchain) : rxs := mkRxs (cc ++ fr) (busy q) got.
Definition tmeas (cur : option rxcur) (lead : list rxdesc) : nat :=
  match cur with None => 0 | Some (CSeek _) => 3 + length lead | Some (CFill _ _ _ _ true) => 2 | Some (CFill _ _ _ _ false) => 1 end.

(** A completion is written. *)
Lemma put_ok q v P D K St lead Ls Lp got cc fr idx len sop eop err q' cn :
  RI q v P D K St lead Ls Lp got cc fr -> length (concat Ls ++ Lp) < n ->
  rdev_put q v idx len sop eop err = (q', cn) ->
  let e := mkRxc idx len sop eop err false in
  cn = ((K + length ((concat Ls ++ Lp) ++ [e])) mod n, gen n (K + length ((concat Ls ++ Lp) ++ [e]))) /\
  gok c_gen csetg n (k_comp q') K ((concat Ls ++ Lp) ++ [e]) /\ length (k_comp q') = n /\
  k_ring q' = k_ring q /\ k_gen q' = k_gen q /\ k_cgen q' = k_cgen q /\ k_tail q' = k_tail q /\ k_head q' = k_head q /\
  k_infl q' = k_infl q /\ k_enq q' = k_enq q.
Proof.
  intros I HL. pose proof r_pos as Hp. unfold rdev_put. intros [= <- <-]. cbn zeta. destruct I. split; [|split; [|split]]; cbn [k_comp].
  - f_equal; rewrite app_length; cbn [length]; rewrite Nat.add_1_r, Nat.add_succ_r.
    + rewrite mod_S by lia. by rewrite R_comp0, R_cnext0.
    + rewrite gen_S by lia. by rewrite R_comp0, R_cnext0, R_dcgen0.
  - pose proof (gok_push c_gen csetg n Hp (k_comp q) K (concat Ls ++ Lp) (mkRxc idx len sop eop err false) R_comp0 HL R_cok0) as G.
    rewrite R_cnext0, R_dcgen0. exact G.
  - by rewrite insert_length.
  - done.
Qed.

Lemma comps_lt q v P D K St lead Ls Lp got cc fr : RI q v P D K St lead Ls Lp got cc fr -> cc <> [] -> length (concat Ls ++ Lp) < n.
Proof.
  intros I Hc. pose proof (R_cap _ _ _ _ _ _ _ _ _ _ _ _ I) as Cp. rewrite all_length in Cp.
  pose proof (got_len _ _ _ (R_got _ _ _ _ _ _ _ _ _ _ _ _ I)) as G.
  destruct (cur_len _ _ _ _ _ (R_cur _ _ _ _ _ _ _ _ _ _ _ _ I)) as [C2 _].
  rewrite app_length. destruct cc; [done|]. cbn [length] in *. lia.
Qed.

Lemma concat_snoc {A} (Ls : list (list A)) l : concat (Ls ++ [l]) = concat Ls ++ l.
Proof. rewrite concat_app. cbn. by rewrite app_nil_r. Qed.

Lemma nsteps_one a e b : rxs_step a e b -> rxs_steps a [e] b.
Proof. intros H. econstructor; [exact H|constructor]. Qed.

(** The packet ends: its last completion is written. *)
Lemma ri_end q v P D K St lead Ls Lp got c fr p rest idx len sop ok lead' q' cn :
  RI q v P D K St lead Ls Lp got [c] fr -> d_cur v = Some (CFill p rest idx len sop) ->
  rdev_put q v idx len sop true (negb ok) = (q', cn) ->
  lead' = lead ->
  (ok = true -> rest = []) ->
  RI q' (mkRdev (d_next v) (d_gen v) None cn.1 cn.2 (d_mem v)) P D K St lead (Ls ++ [Lp ++ [mkRxc idx len sop true (negb ok) false]]) []
    (got ++ [(c, p, ok)]) [] fr /\ busy q' = busy q.
Proof.
  intros I Ec Ep _ Hok. pose proof r_pos as Hp.
  destruct (put_ok _ _ _ _ _ _ _ _ _ _ _ _ _ _ _ _ _ _ _ I ltac:(eapply comps_lt; [exact I|done]) Ep) as (-> & G & GL & E1 & E2 & E3 & E4 & E5 & E6 & E7).
  split; [|by unfold busy; rewrite E7].
  assert (Ea : all (got ++ [(c, p, ok)]) [] fr = all got [c] fr).
  { unfold all, chains. rewrite map_app, <- app_assoc. done. }
  assert (EL : concat (Ls ++ [Lp ++ [mkRxc idx len sop true (negb ok) false]]) ++ [] = (concat Ls ++ Lp) ++ [mkRxc idx len sop true (negb ok) false]).
  { by rewrite app_nil_r, concat_snoc, app_assoc. }
  destruct I. rewrite Ec in R_cur0. unfold pend in *.
  constructor; cbn [d_next d_gen d_cur d_cnext d_cgen d_mem fst snd]; unfold pend; rewrite ?Ea, ?E1, ?E2, ?E3, ?E4, ?E5, ?E6, ?E7, ?EL; try done.
  - cbn [curok] in R_cur0 |- *. destruct R_cur0 as (Hpn & Hi & a0 & l0 & a1 & l1 & Hc & R). split; [done|]. split; [done|].
    unfold leadok. destruct sop.
    + right. eexists. split; [apply R|done].
    + left. apply R.
  - apply Forall2_app; [done|]. constructor; [|constructor].
    cbn [curok] in R_cur0. destruct R_cur0 as (Hpn & Hi & a0 & l0 & a1 & l1 & Hc & R). injection Hc as ->.
    exists a0, l0, a1, l1. split; [done|]. split; [done|]. destruct sop.
    + left. destruct R as (Rr & -> & _ & -> & Rm). exists idx. split; [done|]. split; [done|].
      intros Ho. specialize (Hok Ho). rewrite Hok in Rr. symmetry in Rr.
      assert (length p <= nl l0).
      { apply (f_equal length) in Rr. rewrite drop_length in Rr. cbn in Rr. lia. }
      split; [done|]. rewrite Rm. by apply firstn_all2.
    + right. destruct R as (Rr & -> & Rl & _ & (i0 & Hi0 & ->) & Rm & Rm1). exists i0, idx. split; [done|]. split; [done|]. split; [done|]. split; [done|].
      intros Ho. specialize (Hok Ho). rewrite Hok in Rr. symmetry in Rr.
      assert (length p <= nl l0 + nl l1).
      { apply (f_equal length) in Rr. rewrite drop_length in Rr. cbn in Rr. lia. }
      split; [done|]. split; [done|]. rewrite Rm1. apply firstn_all2. rewrite drop_length. lia.
Qed.

Lemma nodup_cur q v P D K St lead Ls Lp got cc fr c cc' fr' : RI q v P D K St lead Ls Lp got cc fr -> cc ++ fr = cc' ++ c :: fr' ->
  rchain_ok c /\ forall a, a ∈ map fst c -> a ∉ addrs (chains got).
Proof.
  intros I E. pose proof (R_nodup _ _ _ _ _ _ _ _ _ _ _ _ I) as ND. pose proof (R_ok _ _ _ _ _ _ _ _ _ _ _ _ I) as O.
  unfold all in *. rewrite E in *. split.
  - rewrite !stdpp.list.Forall_app in O. destruct O as (_ & _ & O). by inversion O.
  - intros a Ha Hb. rewrite addrs_app in ND. apply NoDup_app in ND as (_ & ND & _). apply (ND a Hb).
    rewrite addrs_app. apply elem_of_app. right. unfold addrs. cbn [map concat]. apply elem_of_app. by left.
Qed.

(** The card takes the next descriptor: ring side. *)
Lemma take_ring q v P D K s St lead Ls Lp got cc fr : RI q v P D K (s :: St) lead Ls Lp got cc fr ->
  (if S (d_next v) =? length (k_ring q) then 0 else S (d_next v)) = S D mod n /\
  (if S (d_next v) =? length (k_ring q) then negb (d_gen v) else d_gen v) = gen n (S D) /\
  gok r_gen rsetg n (k_ring q) (S D) St /\ d_next v < n /\ D + length (s :: St) = S D + length St.
Proof.
  intros I. pose proof r_pos as Hp. destruct I. rewrite mod_S, gen_S by lia. rewrite R_ring0, R_next0, R_dgen0.
  split; [done|]. split; [done|]. split; [|split].
  - by destruct (gok_pop r_gen rsetg ltac:(done) n ltac:(lia) _ _ _ _ R_rok0).
  - apply Nat.mod_upper_bound. lia.
  - cbn. lia.
Qed.

Lemma ri_tick q v P D K St lead Ls Lp got cc fr q' v' es : RI q v P D K St lead Ls Lp got cc fr ->
  rdev_tick q v = Some (q', v', es) ->
  exists D' St' lead' Ls' Lp' got' cc' fr', RI q' v' P D' K St' lead' Ls' Lp' got' cc' fr' /\
    rxs_steps (absr q got cc fr) es (absr q' got' cc' fr') /\ all got' cc' fr' = all got cc fr /\
    tmeas (d_cur v') lead' < tmeas (d_cur v) lead /\
    (((es = [] \/ exists p, es = [RvLost p]) /\ got' = got) \/ exists c p ok, es = [RvPkt p ok] /\ got' = got ++ [(c, p, ok)]).
Proof.
  intros I. pose proof r_pos as Hp. unfold rdev_tick. rewrite (rfetch _ _ _ _ _ _ _ _ _ _ _ _ I).
  pose proof (R_Z _ _ _ _ _ _ _ _ _ _ _ _ I) as Z. pose proof (R_cur _ _ _ _ _ _ _ _ _ _ _ _ I) as C.
  pose proof (Z_len _ _ _ _ _ _ _ _ _ _ _ _ I) as ZL.
  destruct (d_cur v) as [[p|p rest idx len sop]|] eqn:Ec; [| |done].
  - (* looking for a head *)
    cbn [curok] in C. destruct C as (Hpn & -> & -> & Hl). destruct St as [|s St].
    + intros [= <- <- <-]. exists D, [], lead, Ls, [], got, [], fr.
      split. { destruct I. constructor; cbn [d_next d_gen d_cur d_cnext d_cgen d_mem]; done. }
      split.
      { apply nsteps_one. unfold absr. cbn [app]. constructor. unfold busy, pend in *. cbn [length] in ZL.
        destruct (k_enq q) as [[[c rest] i]|] eqn:E; cbn [length] in ZL.
        - rewrite encr_length in ZL. pose proof (R_enq _ _ _ _ _ _ _ _ _ _ _ _ I) as Q. rewrite E in Q. destruct Q as (QA & -> & _).
          assert (O : rchain_ok c). { pose proof (R_ok _ _ _ _ _ _ _ _ _ _ _ _ I) as O. rewrite QA in O. apply Forall_app in O as [_ O]. by inversion O. }
          destruct O as [O _]. rewrite drop_length, O in ZL. destruct fr as [|f [|f2 fr]]; [by left|by right|cbn [length] in ZL; lia].
        - left. destruct fr; [done|cbn [length] in ZL; lia]. }
      split; [done|]. split; [cbn; lia|]. left. split; [right; eauto|done].
    + destruct (take_ring _ _ _ _ _ _ _ _ _ _ _ _ _ I) as (T1 & T2 & T3 & T4 & T5).
      destruct Hl as [->|(d & -> & Hb & Hg)].
      * (* a head *)
        destruct fr as [|c fr]; [done|].
        destruct (nodup_cur _ _ _ _ _ _ _ _ _ _ _ _ c [] fr I eq_refl) as [O ND].
        destruct (two_form c O) as (a0 & l0 & a1 & l1 & -> & B0 & B1).
        unfold rstream in Z. cbn [map concat encr app] in Z. rewrite !mod14 in Z by done. injection Z as Es EZ. subst s.
        cbn [r_body rsetg]. intros [= <- <- <-]. unfold rdev_take. rewrite T1, T2. cbn [r_len r_addr rsetg fst snd].
        exists (S D), St, [mkRxd a1 l1 true false], Ls, [], got, [[(a0, l0); (a1, l1)]], fr.
        split.
        { destruct I. constructor; cbn [d_next d_gen d_cur d_cnext d_cgen d_mem]; try done.
          - by rewrite <- T5.
          - by rewrite <- T5.
          - cbn [curok]. split; [done|]. split; [done|]. exists a0, l0, a1, l1. split; [done|]. split; [done|].
            split; [by rewrite take_length, Nat.min_comm|]. split; [done|]. split; [done|]. apply mem_eq.
          - apply got_mem; [|done]. apply ND. cbn. set_solver.
          - etrans; [|exact R_pos0]. cbn [length]. lia. }
        split; [unfold absr; constructor|]. split; [done|]. split; [cbn; lia|]. left. split; [by left|done].
      * (* a body is passed over *)
        cbn [app] in Z. injection Z as Es EZ. subst s. cbn [r_body rsetg]. rewrite Hb. rewrite T1, T2. intros [= <- <- <-].
        exists (S D), St, [], Ls, [], got, [], fr.
        split.
        { destruct I. constructor; cbn [d_next d_gen d_cur d_cnext d_cgen d_mem]; try done.
          - by rewrite <- T5.
          - by rewrite <- T5.
          - cbn [curok]. repeat (split; [done|]). by left.
          - rewrite <- R_pos0. cbn [length]. lia. }
        split; [unfold absr; constructor|]. split; [done|]. split; [cbn; lia|]. left. split; [by left|done].
  - (* filling *)
    pose proof C as C0. cbn [curok] in C. destruct C as (Hpn & Hi & a0 & l0 & a1 & l1 & -> & C).
    destruct (nodup_cur _ _ _ _ _ _ _ _ _ _ _ _ [(a0, l0); (a1, l1)] [] fr I eq_refl) as [O ND].
    assert (B : (1 <= l0 <= 16383)%N /\ (1 <= l1 <= 16383)%N).
    { destruct (two_form _ O) as (? & ? & ? & ? & [= <- <- <- <-] & ? & ?). done. }
    destruct B as [B0 B1].
    assert (Hend : forall ok q1 cn, rdev_put q v idx len sop true (negb ok) = (q1, cn) -> (ok = true -> rest = []) ->
      rxs_step (absr q got [[(a0, l0); (a1, l1)]] fr) (RvPkt p ok) (absr q (got ++ [([(a0, l0); (a1, l1)], p, ok)]) [] fr) ->
      exists D' St' lead' Ls' Lp' got' cc' fr', RI q1 (mkRdev (d_next v) (d_gen v) None cn.1 cn.2 (d_mem v)) P D' K St' lead' Ls' Lp' got' cc' fr' /\
        rxs_steps (absr q got [[(a0, l0); (a1, l1)]] fr) [RvPkt p ok] (absr q1 got' cc' fr') /\ all got' cc' fr' = all got [[(a0, l0); (a1, l1)]] fr /\
        tmeas None lead' < tmeas (Some (CFill p rest idx len sop)) lead /\
        ((([RvPkt p ok] = [] \/ exists p0, [RvPkt p ok] = [RvLost p0]) /\ got' = got) \/ exists c p0 ok0, [RvPkt p ok] = [RvPkt p0 ok0] /\ got' = got ++ [(c, p0, ok0)])).
    { intros ok q1 cn Ep Hok Hs. destruct (ri_end _ _ _ _ _ _ _ _ _ _ _ _ _ _ _ _ _ ok lead _ _ I Ec Ep eq_refl Hok) as [I' Eb].
      eexists _, _, _, _, _, _, _, _. split; [exact I'|]. split; [apply nsteps_one; unfold absr in *; rewrite Eb; exact Hs|].
      split; [unfold all, chains; rewrite map_app, <- app_assoc; done|]. split; [by destruct sop; cbn; lia|]. right. eauto. }
    destruct rest as [|b0 rest0] eqn:Er; rewrite <- Er in *.
    + rewrite Er. destruct (rdev_put q v idx len sop true false) as [q1 cn] eqn:Ep. intros [= <- <- <-].
      cbn [d_cur]. rewrite <- Er. apply (Hend true q1 cn Ep ltac:(done)). unfold absr. cbn [app]. constructor. cbn [room foldr snd].
      destruct sop.
      * destruct C as (Cr & _). rewrite Er in Cr. apply (f_equal length) in Cr. rewrite drop_length in Cr. cbn in Cr. lia.
      * destruct C as (Cr & _). rewrite Er in Cr. apply (f_equal length) in Cr. rewrite drop_length in Cr. cbn in Cr. lia.
    + assert (Hnil : rest <> []) by by rewrite Er. destruct sop.
      * destruct C as (Cr & Cl & Cd & CL & Cm). subst lead Lp.
        assert (Hlong : nl l0 < length p).
        { rewrite Er in Cr. apply (f_equal length) in Cr. rewrite drop_length in Cr. cbn in Cr. lia. }
        destruct St as [|s St].
        -- rewrite Er. destruct (rdev_put q v idx len true true true) as [q1 cn] eqn:Ep. intros [= <- <- <-].
           cbn [d_cur]. rewrite <- Er. apply (Hend false q1 cn Ep ltac:(done)). unfold absr. cbn [app]. constructor. right.
           unfold busy, pend in *. cbn [length] in ZL. destruct (k_enq q) as [[[c rest1] i]|] eqn:E; [|cbn in ZL; lia].
           rewrite encr_length in ZL. pose proof (R_enq _ _ _ _ _ _ _ _ _ _ _ _ I) as Q. rewrite E in Q. destruct Q as (QA & -> & _).
           assert (O' : rchain_ok c). { pose proof (R_ok _ _ _ _ _ _ _ _ _ _ _ _ I) as O'. rewrite QA in O'. apply Forall_app in O' as [_ O']. by inversion O'. }
           destruct O' as [O' _]. rewrite drop_length, O' in ZL. split; [done|]. split; [|done].
           destruct fr; [done|cbn [length] in ZL; lia].
        -- cbn [app] in Z. injection Z as Es EZ. subst s. cbn [r_body rsetg].
           destruct (take_ring _ _ _ _ _ _ _ _ _ _ _ _ _ I) as (T1 & T2 & T3 & T4 & T5).
           rewrite Er. destruct (rdev_put q v idx len true false false) as [q1 cn] eqn:Ep. intros [= <- <- <-]. rewrite <- Er.
           destruct (put_ok _ _ _ _ _ _ _ _ _ _ _ _ _ _ _ _ _ _ _ I ltac:(eapply comps_lt; [exact I|done]) Ep) as (-> & G & GL & E1 & E2 & E3 & E4 & E5 & E6 & E7).
           unfold rdev_take. rewrite T1, T2. cbn [r_len r_addr rsetg fst snd].
           rewrite app_nil_r in *.
           exists (S D), St, [], Ls, [mkRxc idx len true false false false], got, [[(a0, l0); (a1, l1)]], fr.
           split.
           { destruct I. unfold pend in *. constructor; cbn [d_next d_gen d_cur d_cnext d_cgen d_mem]; unfold pend; rewrite ?E1, ?E2, ?E3, ?E4, ?E5, ?E6, ?E7; try done.
             - by rewrite <- T5.
             - by rewrite <- T5.
             - cbn [curok]. split; [done|]. split; [done|]. exists a0, l0, a1, l1. split; [done|]. rewrite Cr.
               split; [by rewrite drop_drop|]. split; [rewrite take_length, drop_length; f_equal; lia|]. split; [done|]. split; [done|].
               split. { exists idx. split; [done|]. rewrite Cl. f_equal. f_equal. rewrite Nat.min_r by lia. by rewrite N2Nat.id. }
               split; [|apply mem_eq]. rewrite mem_ne; [done|]. intros ->.
               unfold all in R_nodup0. rewrite !addrs_app in R_nodup0. apply NoDup_app in R_nodup0 as (_ & _ & R).
               apply NoDup_app in R as (R & _ & _). unfold addrs in R. cbn in R. apply NoDup_cons in R as [R _]. set_solver.
             - apply got_mem; [|done]. apply ND. cbn. set_solver.
             - rewrite <- R_pos0. cbn [length]. lia. }
           split; [unfold absr, busy; rewrite E7; constructor|]. split; [done|]. split; [cbn; lia|]. left. split; [by left|done].
      * destruct C as (Cr & Cl & Cd & CL & (i0 & Hi0 & CLp) & Cm). subst lead.
        assert (Hlong : room [(a0, l0); (a1, l1)] < length p).
        { rewrite Er in Cr. apply (f_equal length) in Cr. rewrite drop_length in Cr. cbn in Cr |- *. lia. }
        assert (Hb : match (match St with [] => None | s :: _ => Some (rsetg (gen n D) s) end) with Some d => r_body d = false | None => True end).
        { destruct St as [|s St]; [done|]. cbn [app] in Z. destruct fr as [|c fr]; [done|].
          destruct (nodup_cur _ _ _ _ _ _ _ _ _ _ _ _ c [[(a0, l0); (a1, l1)]] fr I eq_refl) as [O' _].
          destruct (two_form c O') as (b0' & m0 & b1' & m1 & -> & _). unfold rstream in Z. cbn [map concat encr app] in Z. injection Z as <- _. done. }
        destruct (match St with [] => None | s :: _ => Some (rsetg (gen n D) s) end) as [d|].
        -- rewrite Hb. rewrite Er. destruct (rdev_put q v idx len false true true) as [q1 cn] eqn:Ep. intros [= <- <- <-].
           cbn [d_cur]. rewrite <- Er. apply (Hend false q1 cn Ep ltac:(done)). unfold absr. cbn [app]. constructor. by left.
        -- rewrite Er. destruct (rdev_put q v idx len false true true) as [q1 cn] eqn:Ep. intros [= <- <- <-].
           cbn [d_cur]. rewrite <- Er. apply (Hend false q1 cn Ep ltac:(done)). unfold absr. cbn [app]. constructor. by left.
Qed.

Definition part (Lp : list rxcomp) : Prop := Lp = [] \/ exists i l, Lp = [mkRxc i l true false false false].
Lemma cur_part cur lead cc Lp m : curok cur lead cc Lp m -> part Lp.
Proof.
  unfold curok. intros H. destruct cur as [[p|p rest idx len [|]]|].
  - left. tauto.
  - left. destruct H as (_ & _ & a0 & l0 & a1 & l1 & -> & _ & _ & _ & -> & _). done.
  - right. destruct H as (_ & _ & a0 & l0 & a1 & l1 & _ & _ & _ & _ & _ & (i0 & _ & ->) & _). eauto.
  - left. tauto.
Qed.

Lemma wrap_idx (comp : list rxcomp) K : length comp = n -> (if S (K mod n) =? length comp then 0 else S (K mod n)) = S K mod n.
Proof. intros ->. rewrite mod_S by lia. done. Qed.
Lemma wrap_gen (comp : list rxcomp) K : length comp = n -> (if S (K mod n) =? length comp then negb (gen n K) else gen n K) = gen n (S K).
Proof. intros ->. rewrite gen_S by lia. done. Qed.

Lemma scan_ok m comp budget got Ls : length comp = n -> Forall2 (gotone m) got Ls -> Forall rchain_ok (chains got) ->
  forall K Lp a fuel, gok c_gen csetg n comp K (concat Ls ++ Lp) -> part Lp -> a < budget -> length (concat Ls ++ Lp) < fuel ->
  rx_scan fuel budget comp (K mod n) (gen n K) true a = Some (Nat.min budget (a + length Ls)).
Proof.
  intros HL H. pose proof r_pos as Hp. induction H as [|g es got Ls Hg _ IH]; intros HO K Lp a fuel G Hpt Ha Hf.
  - cbn [concat app length] in *. rewrite Nat.add_0_r. rewrite Nat.min_r by lia.
    destruct fuel as [|fuel]; [lia|]. cbn [rx_scan]. destruct Hpt as [->|(i & l & ->)].
    + destruct (gok_none c_gen csetg n Hp _ _ G) as (e & -> & ->). by destruct (gen n K).
    + destruct (gok_pop c_gen csetg ltac:(done) n Hp _ _ _ _ G) as [-> G']. cbn [csetg c_gen c_sop c_eop andb]. rewrite eqb_reflx. cbn [eqb].
      destruct (Nat.leb_spec budget a); [lia|]. rewrite wrap_idx, wrap_gen by done.
      destruct fuel as [|fuel]; [cbn in Hf; lia|]. cbn [rx_scan].
      destruct (gok_none c_gen csetg n Hp _ _ G') as (e & -> & ->). by destruct (gen n (S K)).
  - unfold chains in HO. cbn [map] in HO. apply Forall_cons in HO as [O HO].
    destruct g as [[c p] ok]. cbn [fst] in O. destruct Hg as (a0 & l0 & a1 & l1 & -> & Hpn & Hg).
    destruct (two_form _ O) as (? & ? & ? & ? & [= <- <- <- <-] & B0 & B1).
    assert (Hlen : 1 <= length p) by (destruct p; [done|cbn; lia]).
    destruct Hg as [(i & -> & _)|(i & i' & -> & _ & _ & Hl & _)]; cbn [concat app length] in *.
    + destruct fuel as [|fuel]; [lia|]. cbn [rx_scan].
      destruct (gok_pop c_gen csetg ltac:(done) n Hp _ _ _ _ G) as [-> G']. cbn [csetg c_gen c_sop c_eop c_len andb]. rewrite eqb_reflx. cbn [eqb].
      destruct (N.eqb_spec (N.of_nat (length p `min` nl l0)) 0); [lia|]. cbn [negb].
      destruct (Nat.leb_spec budget (S a)); [f_equal; lia|]. rewrite wrap_idx, wrap_gen by done.
      rewrite (IH HO (S K) Lp (S a) fuel G' Hpt) by lia. f_equal. lia.
    + destruct fuel as [|fuel]; [lia|]. cbn [rx_scan].
      destruct (gok_pop c_gen csetg ltac:(done) n Hp _ _ _ _ G) as [-> G']. cbn [csetg c_gen c_sop c_eop c_len andb]. rewrite eqb_reflx. cbn [eqb].
      destruct (Nat.leb_spec budget a); [lia|]. rewrite wrap_idx, wrap_gen by done.
      destruct fuel as [|fuel]; [lia|]. cbn [rx_scan].
      destruct (gok_pop c_gen csetg ltac:(done) n Hp _ _ _ _ G') as [-> G'']. cbn [csetg c_gen c_sop c_eop c_len andb]. rewrite eqb_reflx. cbn [eqb].
      destruct (N.eqb_spec (N.of_nat ((length p - nl l0) `min` nl l1)) 0); [lia|]. cbn [negb].
      destruct (Nat.leb_spec budget (S a)); [f_equal; lia|]. rewrite wrap_idx, wrap_gen by done.
      rewrite (IH HO (S (S K)) Lp (S a) fuel G'' Hpt) by lia. f_equal. lia.
Qed.

Lemma comps_le q v P D K St lead Ls Lp got cc fr : RI q v P D K St lead Ls Lp got cc fr -> length (concat Ls ++ Lp) < S (2 * length (k_comp q)).
Proof.
  intros I. pose proof (R_cap _ _ _ _ _ _ _ _ _ _ _ _ I) as Cp. rewrite all_length in Cp.
  pose proof (got_len _ _ _ (R_got _ _ _ _ _ _ _ _ _ _ _ _ I)) as G.
  destruct (cur_len _ _ _ _ _ (R_cur _ _ _ _ _ _ _ _ _ _ _ _ I)) as [C2 _]. rewrite (R_comp _ _ _ _ _ _ _ _ _ _ _ _ I).
  rewrite app_length. lia.
Qed.

Lemma ri_can q v P D K St lead Ls Lp got cc fr exact : RI q v P D K St lead Ls Lp got cc fr ->
  rx_can_dequeue q exact = Some (if exact then length got else Nat.min 1 (length got)).
Proof.
  intros I. unfold rx_can_dequeue. rewrite (R_tail _ _ _ _ _ _ _ _ _ _ _ _ I), (R_cgen _ _ _ _ _ _ _ _ _ _ _ _ I).
  pose proof (R_got _ _ _ _ _ _ _ _ _ _ _ _ I) as G. pose proof (Forall2_length _ _ _ G) as GL.
  assert (O : Forall rchain_ok (chains got)).
  { pose proof (R_ok _ _ _ _ _ _ _ _ _ _ _ _ I) as O. unfold all in O. by apply Forall_app in O as [O _]. }
  pose proof (R_cap _ _ _ _ _ _ _ _ _ _ _ _ I) as Cp. rewrite all_length in Cp.
  rewrite (scan_ok _ _ _ _ _ (R_comp _ _ _ _ _ _ _ _ _ _ _ _ I) G O K Lp).
  - rewrite Nat.add_0_l, <- GL. destruct exact; [|done]. f_equal. apply Nat.min_r. unfold VMXNET3_MAX_RX_NDESC. lia.
  - by destruct I.
  - eapply cur_part. by destruct I.
  - unfold VMXNET3_MAX_RX_NDESC. destruct exact; lia.
  - by eapply comps_le.
Qed.

Lemma advance_ok q K : length (k_comp q) = n -> k_tail q = K mod n -> k_cgen q = gen n K ->
  k_tail (rx_advance q) = S K mod n /\ k_cgen (rx_advance q) = gen n (S K).
Proof. intros E1 E2 E3. unfold rx_advance. cbn [k_tail k_cgen]. rewrite E2, E3. split; [by apply wrap_idx|by apply wrap_gen]. Qed.

Lemma ri_deq q v P D K St lead Ls Lp got cc fr : RI q v P D K St lead Ls Lp got cc fr -> k_enq q = None ->
  match got with
  | [] => rx_dequeue q (d_mem v) = Some (q, None)
  | (c, p, ok) :: got' => exists q' r es Ls', rx_dequeue q (d_mem v) = Some (q', Some r) /\ delivered c p ok r /\ k_enq q' = None /\
      Ls = es :: Ls' /\ (length es = 1 \/ first_room c < length p) /\ (length es <= 2) /\
      RI q' v (S P) D (K + length es) St lead Ls' Lp got' cc fr
  end.
Proof.
  intros I E. pose proof r_pos as Hp. unfold rx_dequeue. rewrite (ri_can _ _ _ _ _ _ _ _ _ _ _ _ false I).
  destruct got as [|[[c p] ok] got]; [done|]. cbn [length Nat.min].
  pose proof (R_got _ _ _ _ _ _ _ _ _ _ _ _ I) as G. apply Forall2_cons_inv_l in G as (es & Ls' & Hg & G & ->).
  pose proof (R_cok _ _ _ _ _ _ _ _ _ _ _ _ I) as CK. cbn [concat] in CK.
  assert (Hinf : k_infl q = c :: all got cc fr).
  { pose proof (R_enq _ _ _ _ _ _ _ _ _ _ _ _ I) as Q. by rewrite E in Q. }
  assert (O : rchain_ok c).
  { pose proof (R_ok _ _ _ _ _ _ _ _ _ _ _ _ I) as O. unfold all in O. by apply Forall_cons in O as [O _]. }
  destruct Hg as (a0 & l0 & a1 & l1 & -> & Hpn & Hg).
  destruct (two_form _ O) as (? & ? & ? & ? & [= <- <- <- <-] & B0 & B1).
  assert (Hlen : 1 <= length p) by (destruct p; [done|cbn; lia]).
  pose proof (R_comp _ _ _ _ _ _ _ _ _ _ _ _ I) as EC. pose proof (R_tail _ _ _ _ _ _ _ _ _ _ _ _ I) as ET.
  pose proof (R_cgen _ _ _ _ _ _ _ _ _ _ _ _ I) as EG. pose proof (R_ring _ _ _ _ _ _ _ _ _ _ _ _ I) as ER.
  destruct (advance_ok q K EC ET EG) as [A1 A2].
  (* the state afterwards *)
  assert (Hafter : forall q2 es', k_ring q2 = k_ring q -> k_gen q2 = k_gen q -> k_comp q2 = k_comp q -> k_head q2 = k_head q -> k_enq q2 = k_enq q ->
    es' = es -> k_tail q2 = (K + length es) mod n -> k_cgen q2 = gen n (K + length es) ->
    gok c_gen csetg n (k_comp q) (K + length es) (concat Ls' ++ Lp) ->
    RI (mkRxq (k_ring q2) (k_gen q2) (k_comp q2) (k_cgen q2) (k_tail q2) (k_head q2) (all got cc fr) (k_enq q2))
      v (S P) D (K + length es) St lead Ls' Lp got cc fr).
  { intros q2 es' E1 E2 E3 E4 E5 _ E6 E7 GG. destruct I. unfold pend in *.
    assert (Ea : all (([(a0, l0); (a1, l1)], p, ok) :: got) cc fr = [(a0, l0); (a1, l1)] :: all got cc fr) by done.
    rewrite Ea in *.
    constructor; cbn [k_ring k_comp k_gen k_cgen k_tail k_head k_infl k_enq]; unfold pend; cbn [k_enq]; rewrite ?E1, ?E2, ?E3, ?E4, ?E5, ?E6, ?E7; try done.
    - rewrite R_cnext0. cbn [concat]. rewrite !app_length. f_equal. lia.
    - rewrite R_dcgen0. cbn [concat]. rewrite !app_length. f_equal. lia.
    - by rewrite E.
    - by apply Forall_cons in R_ok0 as [_ ?].
    - cbn [length] in R_cap0. lia.
    - unfold addrs in *. cbn [map concat] in R_nodup0. apply NoDup_app in R_nodup0 as (_ & _ & ?). done.
    - rewrite R_pos0. cbn [length]. lia. }
  destruct Hg as [(i & -> & Hi & Hok)|(i & i' & -> & Hi & Hi' & Hl & Hok)].
  - (* one fragment *)
    cbn [app concat] in CK. destruct (gok_pop c_gen csetg ltac:(done) n Hp _ _ _ _ CK) as [L0 CK'].
    set (e := mkRxc i (N.of_nat (length p `min` nl l0)) true true (negb ok) false) in *.
    assert (Sk : rx_skip (S (2 * length (k_comp q))) q = Some q).
    { cbn [rx_skip]. rewrite ET, L0. cbn [csetg c_len e]. destruct (N.eqb_spec (N.of_nat (length p `min` nl l0)) 0); [lia|done]. }
    rewrite Sk, ET, L0, Hinf. cbn [csetg c_sop e]. cbn [length rx_frags]. rewrite ET, L0, EG. cbn [csetg c_gen c_idx c_len c_eop e].
    rewrite eqb_reflx, ER. destruct (Nat.ltb_spec i n); [|lia]. cbn [andb].
    destruct (N.leb_spec (N.of_nat (length p `min` nl l0)) l0); [|lia].
    eexists _, _, _, _. split; [reflexivity|]. split; [|split; [|split; [reflexivity|]]].
    + unfold delivered. cbn [g_segs g_data g_total g_frags csetg c_err e app length]. destruct ok; cbn [negb map fst].
      * destruct (Hok eq_refl) as [H1 H2]. rewrite Nat.min_l by lia. split; [done|].
        cbn [take map concat fst snd app length]. rewrite Nat2N.id, H2, app_nil_r. split; [by apply firstn_all2|]. split; [lia|].
        cbn [room foldr snd]. rewrite ?Nat2N.id. lia.
      * split; [done|]. split; done.
    + exact E.
    + split; [by left|]. split; [cbn; lia|].
      cbn [length] in Hafter. rewrite Nat.add_1_r in Hafter. cbn [length]. rewrite Nat.add_1_r. apply (Hafter _ [e]); try done.
  - (* two fragments *)
    cbn [app concat] in CK. destruct (gok_pop c_gen csetg ltac:(done) n Hp _ _ _ _ CK) as [L0 CK'].
    destruct (gok_pop c_gen csetg ltac:(done) n Hp _ _ _ _ CK') as [L1 CK''].
    assert (A3 : k_tail (rx_advance (rx_advance q)) = S (S K) mod n /\ k_cgen (rx_advance (rx_advance q)) = gen n (S (S K))).
    { apply advance_ok; done. }
    destruct A3 as [A3 A4].
    assert (Sk : rx_skip (S (2 * length (k_comp q))) q = Some q).
    { cbn [rx_skip]. rewrite ET, L0. cbn [csetg c_len]. destruct (N.eqb_spec l0 0); [lia|done]. }
    rewrite Sk, ET, L0, Hinf. cbn [csetg c_sop]. cbn [length rx_frags]. rewrite ET, L0, EG. cbn [csetg c_gen c_idx c_len c_eop].
    rewrite eqb_reflx, ER. destruct (Nat.ltb_spec i n); [|lia]. cbn [andb].
    destruct (N.leb_spec l0 l0); [|lia].
    change (k_comp (rx_advance q)) with (k_comp q). change (k_ring (rx_advance q)) with (k_ring q). rewrite A1, A2, L1. cbn [csetg c_gen c_idx c_len c_eop].
    rewrite eqb_reflx, ER. destruct (Nat.ltb_spec i' n); [|lia]. cbn [andb].
    destruct (N.leb_spec (N.of_nat ((length p - nl l0) `min` nl l1)) l1); [|lia].
    eexists _, _, _, _. split; [reflexivity|]. split; [|split; [|split; [reflexivity|]]].
    + unfold delivered. cbn [g_segs g_data g_total g_frags csetg c_err app length]. destruct ok; cbn [negb map fst].
      * destruct (Hok eq_refl) as (Y1 & Y2 & Y3). rewrite Nat.min_l by lia. split; [done|].
        cbn [take map concat fst snd app length]. rewrite Nat2N.id, Y2, Y3, app_nil_r.
        rewrite take_take, Nat.min_id. rewrite (firstn_all2 (drop _ _)) by (rewrite drop_length; lia). rewrite take_drop.
        split; [done|]. split; [lia|]. cbn [room foldr snd]. rewrite ?Nat2N.id. lia.
      * split; [done|]. split; done.
    + exact E.
    + split; [by right|]. split; [cbn; lia|].
      cbn [length] in Hafter. replace (K + 2) with (S (S K)) in Hafter by lia. cbn [length]. replace (K + 2) with (S (S K)) by lia.
      eapply (Hafter _ _); try done.
Qed.

Definition curp (v : rxdev) : list (list N) :=
  match d_cur v with None => [] | Some (CSeek p) => [p] | Some (CFill p _ _ _ _) => [p] end.
Definition sgl (b K P : nat) (got : list (rchain * list N * bool)) (al : list rchain) : Prop :=
  K = P /\ Forall (fun g => length g.1.2 <= b) got /\ Forall (fun c => b <= first_room c) al.

Lemma tick_curp q v q' v' es : rdev_tick q v = Some (q', v', es) -> curp v = dealt es ++ curp v'.
Proof.
  unfold rdev_tick, curp. destruct (d_cur v) as [[p|p rest idx len sop]|] eqn:Ec; [| |done].
  - destruct (rdev_fetch q v) as [d|]; [|by intros [= <- <- <-]]. destruct (r_body d); by intros [= <- <- <-].
  - destruct rest as [|x rest]; [by intros [= <- <- <-]|].
    destruct (rdev_fetch q v) as [d|]; [|by intros [= <- <- <-]]. destruct (r_body d); by intros [= <- <- <-].
Qed.

(** An empty queue is not refused a chain when every packet had one completion. *)
Lemma never_full P : 3 <= n ->
  ~ (n - (if P mod n <? (2 * P) mod n then (2 * P) mod n - P mod n else P mod n - (2 * P) mod n) < 2).
Proof.
  intros H3. pose proof (Nat.mod_upper_bound P n ltac:(lia)) as B1. pose proof (Nat.mod_upper_bound (2 * P) n ltac:(lia)) as B2.
  assert (E : (2 * P) mod n = (2 * (P mod n)) mod n) by by rewrite Nat.mul_mod_idemp_r by lia.
  rewrite E in *. set (r := P mod n) in *. clearbody r. clear E.
  assert ((2 * r) mod n = 2 * r \/ (2 * r) mod n = 2 * r - n) as [Hm|Hm].
  { destruct (decide (2 * r < n)); [left; by apply Nat.mod_small|right].
    replace (2 * r) with ((2 * r - n) + 1 * n) at 1 by lia. rewrite Nat.mod_add by lia. apply Nat.mod_small. lia. }
  - rewrite Hm in *. destruct (Nat.ltb_spec r (2 * r)); lia.
  - rewrite Hm in *. destruct (Nat.ltb_spec r (2 * r - n)); lia.
Qed.

Lemma rx_sim q v P D K St lead Ls Lp got cc fr a q' v' es es2 : RI q v P D K St lead Ls Lp got cc fr -> ract_ok a ->
  rx_step (q, v) a = Some (q', v', es) -> careful n (all got cc fr) (es ++ es2) ->
  exists P' D' K' St' lead' Ls' Lp' got' cc' fr', RI q' v' P' D' K' St' lead' Ls' Lp' got' cc' fr' /\
    rxs_steps (absr q got cc fr) es (absr q' got' cc' fr') /\ careful n (all got' cc' fr') es2 /\
    (forall b, 3 <= n -> sgl b K P got (all got cc fr) -> single b (length (all got cc fr)) (es ++ es2) ->
       (forall c, RvEnq c false ∉ es) /\ sgl b K' P' got' (all got' cc' fr') /\ single b (length (all got' cc' fr')) es2) /\
    tmeas (d_cur v') lead' + ticks [a] <= tmeas (d_cur v) lead + 4 * length (arrived [a]) /\
    curp v ++ arrived [a] = dealt es ++ curp v'.
Proof.
  intros I OK. pose proof r_pos as Hp. unfold rx_step. destruct a.
  - (* REnq *) destruct (k_enq q) eqn:E; [done|]. destruct (rx_enq_start q c) as [q1 e1] eqn:Es. intros [= <- <- <-].
    destruct (ri_start _ _ _ _ _ _ _ _ _ _ _ _ _ _ _ I E OK Es) as [(-> & -> & Hfull)|(-> & E1 & I1)]; cbn [app careful]; intros Hc.
    + exists P, D, K, St, lead, Ls, Lp, got, cc, fr. split; [done|]. split.
      { apply nsteps_one. unfold absr, busy. rewrite E. constructor. }
      split; [done|]. split.
      { intros b H3 (S1 & S2 & S3) Hs. exfalso. cbn [single] in Hs. destruct Hs as (Hz & _ & _).
        pose proof (R_pos _ _ _ _ _ _ _ _ _ _ _ _ I) as EP. unfold pend in EP. rewrite E, Hz in EP. cbn [length] in EP. rewrite !Nat.add_0_r in EP.
        revert Hfull. unfold rx_capacity, rx_len. rewrite (R_tail _ _ _ _ _ _ _ _ _ _ _ _ I), (R_head _ _ _ _ _ _ _ _ _ _ _ _ I), EP, S1, (R_ring _ _ _ _ _ _ _ _ _ _ _ _ I).
        by apply never_full. }
      split; [cbn; lia|]. cbn. by rewrite app_nil_r.
    + destruct Hc as (H1 & H2 & H3 & H4). specialize (I1 H1 H2 H3).
      assert (EA : all got cc (fr ++ [c]) = all got cc fr ++ [c]) by by unfold all; rewrite !app_assoc.
      exists P, D, K, St, lead, Ls, Lp, got, cc, (fr ++ [c]). split; [done|]. split.
      { apply nsteps_one. unfold absr, busy. rewrite E, E1, app_assoc. constructor. }
      rewrite EA. split; [done|]. split.
      { intros b H5 (S1 & S2 & S3) Hs. cbn [single] in Hs. destruct Hs as (Hz & Hb & Hs). split; [set_solver|]. split.
        - split; [done|]. split; [done|]. apply Forall_app. split; [done|]. by apply stdpp.list.Forall_singleton.
        - rewrite app_length, Hz. done. }
      split; [cbn; lia|]. cbn. by rewrite app_nil_r.
  - (* RStep *) destruct (rx_enq_step q) as [[q1 e1]|] eqn:Es; [|done]. intros [= <- <- <-] Hc.
    destruct (ri_step _ _ _ _ _ _ _ _ _ _ _ _ _ _ I Es) as (c & rest & i & E & [(-> & E1 & St' & I')|(-> & E1 & I')]).
    + exists P, D, K, St', lead, Ls, Lp, got, cc, fr. split; [done|]. split.
      { unfold absr, busy. rewrite E. destruct (k_enq q1); [|done]. constructor. }
      split; [done|]. split; [intros; split; [set_solver|done]|]. split; [cbn; lia|]. cbn. by rewrite app_nil_r.
    + exists P, D, K, St, lead, Ls, Lp, got, cc, fr. split; [done|]. split.
      { apply nsteps_one. unfold absr, busy. rewrite E, E1. constructor. }
      split; [done|]. split; [intros; split; [set_solver|done]|]. split; [cbn; lia|]. cbn. by rewrite app_nil_r.
  - (* RFlush *) destruct (k_enq q) eqn:E; [done|]. intros [= <- <- <-] Hc.
    exists P, D, K, St, lead, Ls, Lp, got, cc, fr. split; [done|]. split.
    { apply nsteps_one. unfold absr, busy. rewrite E. constructor. }
    split; [done|]. split; [intros; split; [set_solver|done]|]. split; [cbn; lia|]. cbn. by rewrite app_nil_r.
  - (* RCan *) destruct (k_enq q) eqn:E; [done|]. rewrite (ri_can _ _ _ _ _ _ _ _ _ _ _ _ exact I). intros [= <- <- <-] Hc.
    exists P, D, K, St, lead, Ls, Lp, got, cc, fr. split; [done|]. split.
    { apply nsteps_one. unfold absr, busy. rewrite E. by constructor. }
    split; [done|]. split; [intros; split; [set_solver|done]|]. split; [cbn; lia|]. cbn. by rewrite app_nil_r.
  - (* RDeq *) destruct (k_enq q) eqn:E; [done|]. pose proof (ri_deq _ _ _ _ _ _ _ _ _ _ _ _ I E) as X. destruct got as [|[[c p] ok] got].
    + rewrite X. intros [= <- <- <-] Hc. exists P, D, K, St, lead, Ls, Lp, [], cc, fr. split; [done|]. split.
      { apply nsteps_one. unfold absr, busy. rewrite E. constructor. }
      split; [done|]. split; [intros; split; [set_solver|done]|]. split; [cbn; lia|]. cbn. by rewrite app_nil_r.
    + destruct X as (q1 & r & es0 & Ls' & -> & Hd & E1 & -> & Hl & Hl2 & I'). intros [= <- <- <-] Hc.
      exists (S P), D, (K + length es0), St, lead, Ls', Lp, got, cc, fr. split; [done|]. split.
      { apply nsteps_one. unfold absr, busy. rewrite E, E1. by constructor. }
      split; [exact Hc|]. split.
      { intros b H5 (S1 & S2 & S3) Hs. split; [set_solver|]. apply Forall_cons in S2 as [S2 S2']. cbn in S2.
        change (all ((c, p, ok) :: got) cc fr) with (c :: all got cc fr) in *. apply Forall_cons in S3 as [S3 S3'].
        split; [|exact Hs]. split; [|done]. destruct Hl as [->|Hl]; [subst K; lia|lia]. }
      split; [cbn; lia|]. cbn. by rewrite app_nil_r.
  - (* RPkt *) destruct (d_cur v) eqn:Ec; [done|]. intros [= <- <- <-] Hc.
    exists P, D, K, St, lead, Ls, Lp, got, cc, fr. split.
    { destruct I. constructor; cbn [d_next d_gen d_cur d_cnext d_cgen d_mem]; try done. rewrite Ec in R_cur0. cbn [curok] in *. done. }
    split; [unfold absr; constructor|]. split; [done|]. split; [intros; split; [set_solver|done]|].
    destruct (cur_len _ _ _ _ _ (R_cur _ _ _ _ _ _ _ _ _ _ _ _ I)) as [_ Cl].
    split; [cbn; lia|]. unfold curp. rewrite Ec. done.
  - (* RTick *) intros Es Hc. pose proof (tick_curp _ _ _ _ _ Es) as Hcp.
    destruct (ri_tick _ _ _ _ _ _ _ _ _ _ _ _ _ _ _ I Es) as (D' & St' & lead' & Ls' & Lp' & got' & cc' & fr' & I' & Hst & Hal & Hm & Hev).
    exists P, D', K, St', lead', Ls', Lp', got', cc', fr'. split; [done|]. split; [done|]. rewrite Hal. split.
    { destruct Hev as [[[->|[p ->]] _]|(c & p & ok & -> & _)]; exact Hc. }
    split.
    { intros b H5 (S1 & S2 & S3) Hs. destruct Hev as [[[->|[p ->]] ->]|(c & p & ok & -> & ->)].
      - split; [set_solver|]. done.
      - split; [set_solver|]. done.
      - split; [set_solver|]. cbn [app single] in Hs. destruct Hs as [Hs1 Hs2]. split; [|done]. split; [done|]. split; [|done].
        apply Forall_app. split; [done|]. by apply stdpp.list.Forall_singleton. }
    split; [cbn; lia|]. by rewrite app_nil_r.
Qed.

Lemma rss_app a es b es' c : rxs_steps a es b -> rxs_steps b es' c -> rxs_steps a (es ++ es') c.
Proof. induction 1; [done|]. intros. econstructor; [done|]. by apply IHrxs_steps. Qed.

Lemma rx_run_sim l : forall q v P D K St lead Ls Lp got cc fr q' v' es, RI q v P D K St lead Ls Lp got cc fr -> Forall ract_ok l ->
  rx_run (q, v) l = Some (q', v', es) -> careful n (all got cc fr) es ->
  exists P' D' K' St' lead' Ls' Lp' got' cc' fr', RI q' v' P' D' K' St' lead' Ls' Lp' got' cc' fr' /\
    rxs_steps (absr q got cc fr) es (absr q' got' cc' fr') /\
    (forall b, 3 <= n -> sgl b K P got (all got cc fr) -> single b (length (all got cc fr)) es -> (forall c, RvEnq c false ∉ es)) /\
    tmeas (d_cur v') lead' + ticks l <= tmeas (d_cur v) lead + 4 * length (arrived l) /\
    curp v ++ arrived l = dealt es ++ curp v'.
Proof.
  induction l as [|a l IH]; intros q v P D K St lead Ls Lp got cc fr q' v' es I OK.
  - cbn. intros [= <- <- <-] _. exists P, D, K, St, lead, Ls, Lp, got, cc, fr. split; [done|]. split; [constructor|].
    split; [set_solver|]. split; [lia|]. by rewrite app_nil_r.
  - apply Forall_cons in OK as [OK1 OK2]. cbn [rx_run]. destruct (rx_step (q, v) a) as [[[q1 v1] e1]|] eqn:E1; [|done].
    destruct (rx_run (q1, v1) l) as [[[q2 v2] e2]|] eqn:E2; [|done]. intros [= <- <- <-] Hc.
    destruct (rx_sim _ _ _ _ _ _ _ _ _ _ _ _ _ _ _ _ e2 I OK1 E1 Hc) as (P1 & D1 & K1 & St1 & lead1 & Ls1 & Lp1 & got1 & cc1 & fr1 & I1 & N1 & C1 & S1 & M1 & A1).
    destruct (IH _ _ _ _ _ _ _ _ _ _ _ _ _ _ _ I1 OK2 E2 C1) as (P' & D' & K' & St' & lead' & Ls' & Lp' & got' & cc' & fr' & I' & N' & S' & M' & A').
    exists P', D', K', St', lead', Ls', Lp', got', cc', fr'. split; [done|]. split; [by eapply rss_app|]. split.
    + intros b H3 Sg Hs c. destruct (S1 b H3 Sg Hs) as (X1 & X2 & X3). apply not_elem_of_app. split; [apply X1|]. by apply (S' b H3 X2 X3).
    + assert (Ea : arrived (a :: l) = arrived [a] ++ arrived l) by by unfold arrived; cbn; rewrite app_nil_r.
      assert (Et : ticks (a :: l) = ticks [a] + ticks l) by by destruct a; cbn.
      rewrite Ea, Et, app_length. split; [lia|].
      unfold dealt. rewrite map_app, concat_app. fold (dealt e1) (dealt e2). rewrite app_assoc, A1, <- !app_assoc, A'. done.
Qed.

Lemma ri_init : RI (rx_new n) rdev_new 0 0 0 [] [] [] [] [] [] [].
Proof.
  pose proof r_pos as Hp.
  constructor; cbn [rx_new rdev_new k_ring k_comp k_gen k_cgen k_tail k_head k_infl k_enq d_next d_gen d_cur d_cnext d_cgen d_mem concat app length Nat.add];
    rewrite ?Nat.mod_0_l, ?gen_0 by lia; try done; try (cbn; lia).
  - by rewrite replicate_length.
  - by rewrite replicate_length.
  - split; [done|]. intros j Hj. cbn in Hj. exists rxd_default. cbn [Nat.add]. rewrite Nat.mod_small by lia.
    rewrite lookup_replicate_2 by lia. unfold gen. rewrite Nat.div_small by lia. done.
  - split; [done|]. intros j Hj. cbn in Hj. exists rxc_default. cbn [Nat.add]. rewrite Nat.mod_small by lia.
    rewrite lookup_replicate_2 by lia. unfold gen. rewrite Nat.div_small by lia. done.
  - constructor.
  - constructor.
  - cbn. split; [done|]. split; [done|]. by left.
Qed.

Lemma rss_fine a es b : rxs_steps a es b -> RvPanic ∉ es.
Proof. induction 1 as [|a e b es c H _ IH]; [set_solver|]. apply not_elem_of_cons. split; [|done]. intros <-. inversion H. Qed.
End inv.
