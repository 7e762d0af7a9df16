(** C36: invariants of the user-level semaphore. *)
From Verif Require Import Base CntLib SemModel.

Lemma vpop_Some l j r : vpop l = Some (j, r) -> l = r ++ [j].
Proof.
  unfold vpop. destruct (reverse l) as [|x t] eqn:E; [done|]. intros [= -> <-].
  rewrite <- (reverse_involutive l), E. by rewrite reverse_cons.
Qed.
Lemma vpop_None l : vpop l = None -> l = [].
Proof.
  unfold vpop. destruct (reverse l) as [|x t] eqn:E; [|done]. intros _.
  by rewrite <- (reverse_involutive l), E.
Qed.
Lemma wk_take_occ i l l' : wk_take i l = Some l' ->
  S (length l') = length l /\ forall j, occ j l = occ j l' + Nat.b2n (j =? i).
Proof.
  revert l'. induction l as [|x l IH]; intros l' E; simpl in E; [done|].
  destruct (decide (x = i)) as [->|Hn].
  - injection E as <-. split; [done|]. intros j. unfold occ. simpl. lia.
  - destruct (wk_take i l) as [l1|] eqn:E1; [|done]. injection E as <-. destruct (IH _ eq_refl) as [H1 H2].
    split; [simpl; lia|]. intros j. specialize (H2 j). unfold occ in *. simpl. lia.
Qed.
Lemma occ_one i j : occ i [j] = Nat.b2n (i =? j).
Proof. unfold occ. simpl. lia. Qed.

(** Threads that hold the mutex; that have raised count; that are past the wait or need no
    wait; about to signal; threads signalled. *)
Definition inm (p : spc) : bool :=
  match p with SU1 | SU2 | SU3 _ | SU4 | SD1 | SD2 | SD3 | SD6 | SD7 | SD8 | SPanic => true | _ => false end.
Definition raised (p : spc) : bool := match p with SU2 | SU3 _ | SU4 => true | _ => false end.
Definition woken (p : spc) : bool := match p with SD5 | SD6 | SD7 | SD8 => true | _ => false end.
Definition sgn (p : spc) : bool := match p with SU2 | SU3 _ => true | _ => false end.
Definition at7 (p : spc) : bool := match p with SD7 => true | _ => false end.
Definition wakes (p : spc) : bool := match p with SU2 | SU3 _ | SD5 | SD6 | SD7 => true | _ => false end.
Definition su3 (i : nat) (p : spc) : bool := match p with SU3 j => i =? j | _ => false end.
Definition blk (p : spc) : bool := match p with SD3 | SD4 => true | _ => false end.
Definition blk_at (th : list spc) (i : nat) : nat :=
  match th !! i with Some p => Nat.b2n (blk p) | None => 0 end.
Definition posc (s : sst) : nat := if decide (0 < s_cnt s)%Z then if decide (cnt at7 (s_th s) = 0) then 1 else 0 else 0.
Definition ini (c0 : Z) : nat := if decide (0 < c0)%Z then 1 else 0.

Record sinv (c0 : Z) (s : sst) : Prop := {
  si_mtx : forall i p, s_th s !! i = Some p -> inm p = true <-> s_mtx s = Some i;
  si_lt : forall i, s_mtx s = Some i -> i < length (s_th s);
  si_place : forall i, occ i (s_wt s) + occ i (s_wk s) + cnt (su3 i) (s_th s) = blk_at (s_th s) i;
  si_su2 : forall i, s_th s !! i = Some SU2 -> (0 < s_cnt s)%Z;
  si_sd2 : forall i, s_th s !! i = Some SD2 -> (s_cnt s <= 0)%Z;
  si_sd8 : forall i, s_th s !! i = Some SD8 -> s_cnt s = 0%Z;
  si_bound : downs (s_tr s) + cnt woken (s_th s) + length (s_wk s) + cnt sgn (s_th s) + posc s
             <= ini c0 + 2 * (ups (s_tr s) + cnt raised (s_th s));
  si_wake : (0 < s_cnt s)%Z -> 0 < length (s_wt s) -> 0 < cnt wakes (s_th s) + length (s_wk s);
  si_panic : forall i, s_th s !! i <> Some SPanic;
}.

Lemma sinv_init c0 n : sinv c0 (s_init c0 n).
Proof.
  assert (Z : forall P, P SIdle = false -> cnt P (replicate n SIdle) = 0).
  { intros P H. rewrite cnt_replicate, H. simpl. lia. }
  split; unfold s_init; cbn [s_mtx s_cnt s_wt s_wk s_th s_tr]; rewrite ?Z by done; try done; try (simpl; lia).
  - intros i p H. apply lookup_replicate in H as [-> _]. done.
  - intros i. rewrite Z by done. unfold blk_at. destruct (replicate n SIdle !! i) eqn:E; [|done].
    by apply lookup_replicate in E as [-> _].
  - intros i H. by apply lookup_replicate in H as [? _].
  - intros i H. by apply lookup_replicate in H as [? _].
  - intros i H. by apply lookup_replicate in H as [? _].
  - unfold posc, ini, downs, ups. cbn [s_cnt s_th cnt length]. rewrite Z by done. repeat case_decide; lia.
  - intros i H. by apply lookup_replicate in H as [? _].
Qed.

Lemma inm_one s i j p q c0 : sinv c0 s -> s_th s !! i = Some p -> s_th s !! j = Some q ->
  inm p = true -> inm q = true -> i = j.
Proof. intros I Hi Hj Hp Hq. apply (si_mtx _ _ I _ _ Hi) in Hp. apply (si_mtx _ _ I _ _ Hj) in Hq. congruence. Qed.

Lemma sinv_step c0 s i a s' : sinv c0 s -> s_step s i a = Some s' -> sinv c0 s'.
Proof.
  intros I E. unfold s_step in E. destruct (s_th s !! i) as [pc|] eqn:Ei; [|done].
  assert (Hil : i < length (s_th s)) by (by eapply lookup_lt_Some).
  pose proof (fun P q => cnt_insert P (s_th s) i pc q Ei) as C.
  assert (OTH : forall j q, s_th s !! j = Some q -> inm pc = true -> inm q = true -> j = i).
  { intros j q Hj H1 H2. by eapply inm_one. }
  pose proof (si_mtx _ _ I _ _ Ei) as IMi.
  assert (AT7 : inm pc = true -> cnt at7 (s_th s) = Nat.b2n (at7 pc)).
  { intros Hm. pose proof (C at7 SIdle) as C7. simpl in C7.
    assert (cnt at7 (<[i := SIdle]> (s_th s)) = 0); [|lia]. apply cnt_zero. intros j q Hj.
    destruct (decide (j = i)) as [->|Hn].
    - rewrite list_lookup_insert in Hj by done. by injection Hj as <-.
    - rewrite list_lookup_insert_ne in Hj by done. destruct q; try done. exfalso. by apply Hn, (OTH j SD7). }
  assert (SMN : s_mtx s = None -> cnt at7 (s_th s) = 0).
  { intros Hm. apply cnt_zero. intros j q Hj. destruct q; try done. exfalso.
    pose proof (proj1 (si_mtx _ _ I _ _ Hj) eq_refl). congruence. }
  assert (PLi : occ i (s_wt s) + occ i (s_wk s) + cnt (su3 i) (s_th s) = Nat.b2n (blk pc)).
  { rewrite (si_place _ _ I i). unfold blk_at. by rewrite Ei. }
  destruct I as [IM IL IP I2 I3 I8 IB IW IQ].
  assert (L : forall q j p, <[i := q]> (s_th s) !! j = Some p -> (j = i /\ p = q) \/ (j <> i /\ s_th s !! j = Some p)).
  { intros q j p Hj. destruct (decide (j = i)) as [->|Hn].
    - rewrite list_lookup_insert in Hj by done. left. by injection Hj as <-.
    - rewrite list_lookup_insert_ne in Hj by done. by right. }
  assert (M0 : forall q, inm q = inm pc -> forall j p, <[i := q]> (s_th s) !! j = Some p -> inm p = true <-> s_mtx s = Some j).
  { intros q Hq j p Hj. apply L in Hj as [[-> ->]|[Hn Hj]]; [by rewrite Hq|by apply IM]. }
  assert (M1 : forall q, s_mtx s = None -> inm q = true -> forall j p, <[i := q]> (s_th s) !! j = Some p -> inm p = true <-> Some i = Some j).
  { intros q HN Hq j p Hj. apply L in Hj as [[-> ->]|[Hn Hj]]; [by rewrite Hq|].
    rewrite (IM _ _ Hj), HN. split; intros [= ?]. congruence. }
  assert (M2 : forall q, inm pc = true -> inm q = false -> forall j p, <[i := q]> (s_th s) !! j = Some p -> inm p = true <-> None = Some j).
  { intros q Hp Hq j p Hj. apply L in Hj as [[-> ->]|[Hn Hj]]; [rewrite Hq; split; [done|by intros [= ?]]|].
    rewrite (IM _ _ Hj). apply IMi in Hp. split; [|done]. intros. congruence. }
  assert (BA : forall q j, blk_at (<[i := q]> (s_th s)) j = if decide (j = i) then Nat.b2n (blk q) else blk_at (s_th s) j).
  { intros q j. unfold blk_at. destruct (decide (j = i)) as [->|Hn];
      [by rewrite list_lookup_insert|by rewrite list_lookup_insert_ne]. }
  assert (BAi : blk_at (s_th s) i = Nat.b2n (blk pc)) by (unfold blk_at; by rewrite Ei).
  unfold posc, ups, downs in IB. unfold blk_at in BAi.
  destruct s as [m c wt wk th tr]. cbn [s_mtx s_cnt s_wt s_wk s_th s_tr] in *.
  assert (G : forall m' c' wt' wk' q ev,
    (forall j p, <[i := q]> th !! j = Some p -> inm p = true <-> m' = Some j) ->
    (forall j, m' = Some j -> j < length th) ->
    (forall j, occ j wt' + occ j wk' + cnt (su3 j) (<[i := q]> th) = blk_at (<[i := q]> th) j) ->
    (q = SU2 -> 0 < c')%Z -> (q = SD2 -> c' <= 0)%Z -> (q = SD8 -> c' = 0%Z) ->
    (c' = c \/ inm pc = true) -> q <> SPanic ->
    (downs (tr ++ ev) + cnt woken (<[i := q]> th) + length wk' + cnt sgn (<[i := q]> th) + posc (mkS m' c' wt' wk' (<[i := q]> th) (tr ++ ev))
             <= ini c0 + 2 * (ups (tr ++ ev) + cnt raised (<[i := q]> th))) ->
    ((0 < c')%Z -> 0 < length wt' -> 0 < cnt wakes (<[i := q]> th) + length wk') ->
    sinv c0 (mkS m' c' wt' wk' (<[i := q]> th) (tr ++ ev))).
  { intros m' c' wt' wk' q ev G1 G2 G3 G4 G5 G6 G7 G8 G9 G10.
    split; cbn [s_mtx s_cnt s_wt s_wk s_th s_tr]; rewrite ?insert_length; try done.
    - intros j Hj. apply L in Hj as [[-> Hq]|[Hn Hj]]; [by apply G4|].
      destruct G7 as [->|Hm]; [by apply (I2 j)|]. exfalso. by apply Hn, (OTH j SU2).
    - intros j Hj. apply L in Hj as [[-> Hq]|[Hn Hj]]; [by apply G5|].
      destruct G7 as [->|Hm]; [by apply (I3 j)|]. exfalso. by apply Hn, (OTH j SD2).
    - intros j Hj. apply L in Hj as [[-> Hq]|[Hn Hj]]; [by apply G6|].
      destruct G7 as [->|Hm]; [by apply (I8 j)|]. exfalso. by apply Hn, (OTH j SD8).
    - intros j Hj. apply L in Hj as [[-> Hq]|[Hn Hj]]; [by apply G8|by apply (IQ j)]. }
  assert (DU : forall ev, downs (tr ++ ev) = downs tr + downs ev /\ ups (tr ++ ev) = ups tr + ups ev).
  { intros ev. split; apply cnt_app. }
  unfold posc in *. cbn [s_th s_cnt] in *. unfold ups, downs in *.
  assert (P0 : forall q, blk q = blk pc -> (forall j, su3 j q = su3 j pc) -> forall j,
     occ j wt + occ j wk + cnt (su3 j) (<[i := q]> th) = blk_at (<[i := q]> th) j).
  { intros q Hq Hs j. pose proof (C (su3 j) q) as C1. rewrite Hs in C1. rewrite BA. specialize (IP j).
    destruct (decide (j = i)) as [->|Hn]; [rewrite Hq; lia|lia]. }
  assert (IL' : forall j, Some i = Some j -> j < length th) by (intros j [= <-]; done).
  assert (IN' : forall j, None = Some j -> j < length th) by done.
  destruct pc, a; cbn [s_exec] in E; try discriminate E.
  all: repeat match type of E with
       | context [match ?b with Some _ => _ | None => _ end] => destruct b as [[? ?]|] eqn:? || destruct b eqn:?
       end; try discriminate E; injection E as <-.
  all: match goal with |- sinv _ (mkS _ _ _ _ (<[_ := ?q]> _) (_ ++ ?ev)) => pose proof (DU ev) as [DU1 DU2];
       pose proof (C woken q) as C1; pose proof (C sgn q) as C2; pose proof (C raised q) as C3; pose proof (C wakes q) as C4;
       pose proof (C at7 q) as C5 end.
  all: repeat match goal with |- context [if decide ?b then _ else _] => destruct (decide b) end.
  all: repeat match goal with H : context [if decide ?b then ?x else ?y] |- _ =>
         match type of x with spc => destruct (decide b); [|] end end; try (exfalso; lia).
  all: try match goal with H : vpop _ = Some _ |- _ => apply vpop_Some in H; subst wt end.
  all: try match goal with H : vpop _ = None |- _ => apply vpop_None in H; subst wt end.
  all: try match goal with H : wk_take _ _ = Some _ |- _ => apply wk_take_occ in H as [WK1 WK2] end.
  all: simpl in C1, C2, C3, C4, C5, DU1, DU2, PLi.
  all: apply G; unfold posc; cbn [s_th s_cnt]; unfold ups, downs; try done; try (by left); try (by right); try lia.
  all: try (by apply M0). all: try (by apply M1). all: try (by apply M2). all: try (by apply P0).
  all: rewrite ?DU1, ?DU2, ?app_length; cbn [length] in *; try rewrite app_length in IW; cbn [length] in *.
  all: try (specialize (AT7 eq_refl); simpl in AT7). all: try (specialize (SMN eq_refl)).
  all: repeat match goal with |- context [if decide ?b then _ else _] => destruct (decide b) end.
  all: repeat match goal with H : context [if decide ?b then _ else _] |- _ => destruct (decide b) end.
  all: try lia.
  all: try (let k := fresh "k" in intros k; rewrite BA; specialize (IP k);
    match goal with |- context [cnt (su3 k) (<[_ := ?q]> _)] => pose proof (C (su3 k) q) as CK end;
    repeat match goal with H : forall j, occ j _ = _ |- _ => specialize (H k) end;
    rewrite ?occ_app, ?occ_one in *; simpl in CK; unfold blk_at in IP |- *;
    destruct (decide (k = i)) as [Hk|Hk]; [subst k; rewrite Ei in IP; simpl in IP|];
    repeat match goal with H : context [?x =? ?y] |- _ => destruct (Nat.eqb_spec x y) end;
    repeat match goal with |- context [?x =? ?y] => destruct (Nat.eqb_spec x y) end;
    cbn [Nat.b2n blk] in *; try done; lia).
  all: try match goal with H : _ ∈ _ |- _ => apply occ_in in H; exfalso; lia end.
  specialize (I3 i Ei). lia.
Qed.

Lemma s_run_inv c0 s l s' : sinv c0 s -> s_run s l = Some s' -> sinv c0 s'.
Proof.
  revert s. induction l as [|[i a] l IH]; intros s I E; simpl in E; [by injection E as <-|].
  destruct (s_step s i a) as [s1|] eqn:E1; [|done]. eapply IH; [|done]. by eapply sinv_step.
Qed.
Lemma s_reach c0 n l s : s_run (s_init c0 n) l = Some s -> sinv c0 s.
Proof. apply s_run_inv, sinv_init. Qed.

(** With one consumer [k]: threads other than [k] are never in a down. *)
Definition upper (p : spc) : bool := match p with SIdle | SU0 | SU1 | SU2 | SU3 _ | SU4 => true | _ => false end.
Definition avail (s : sst) : nat :=
  if decide (0 < s_cnt s)%Z then 1
  else if decide (0 < cnt woken (s_th s) + length (s_wk s) + cnt sgn (s_th s)) then 1 else 0.
Record one (c0 : Z) (k : nat) (s : sst) : Prop := {
  o_up : forall i p, s_th s !! i = Some p -> i <> k -> upper p = true;
  o_bound : downs (s_tr s) + avail s <= ini c0 + ups (s_tr s) + cnt raised (s_th s) }.

Lemma one_step c0 k s i a s' : sinv c0 s -> one c0 k s -> (a = SDown -> i = k) ->
  s_step s i a = Some s' -> one c0 k s'.
Proof.
  intros I [OU OB] Ha E. pose proof (sinv_step _ _ _ _ _ I E) as I'.
  unfold s_step in E. destruct (s_th s !! i) as [pc|] eqn:Ei; [|done].
  assert (Hil : i < length (s_th s)) by (by eapply lookup_lt_Some).
  pose proof (fun P q => cnt_insert P (s_th s) i pc q Ei) as C.
  assert (L : forall q, (upper pc = true -> a <> SDown -> upper q = true) -> forall j p, <[i := q]> (s_th s) !! j = Some p -> j <> k -> upper p = true).
  { intros q Hq j p Hj Hk. destruct (decide (j = i)) as [->|Hn].
    - rewrite list_lookup_insert in Hj by done. injection Hj as <-. apply Hq; [by eapply OU|]. intros ->. by apply Hk, Ha.
    - rewrite list_lookup_insert_ne in Hj by done. by eapply OU. }
  assert (S2 : pc = SU2 -> (0 < s_cnt s)%Z) by (intros ->; by eapply si_su2).
  assert (S8 : pc = SD8 -> s_cnt s = 0%Z /\ s_wk s = [] /\ cnt woken (s_th s) = 1 /\ cnt sgn (s_th s) = 0).
  { intros ->. split; [by eapply si_sd8|].
    assert (Hik : i = k) by (destruct (decide (i = k)) as [|Hn]; [done|]; discriminate (OU _ _ Ei Hn)). subst k.
    assert (NB : forall j, blk_at (s_th s) j = 0).
    { intros j. unfold blk_at. destruct (s_th s !! j) as [q|] eqn:Ej; [|done].
      destruct (decide (j = i)) as [->|Hn]; [rewrite Ei in Ej; by injection Ej as <-|].
      pose proof (OU _ _ Ej Hn). by destruct q. }
    split_and!.
    - destruct (s_wk s) as [|x t] eqn:Ew; [done|]. pose proof (si_place _ _ I x) as P. rewrite NB, Ew in P.
      change (occ x (x :: t)) with (Nat.b2n (x =? x) + occ x t) in P. rewrite Nat.eqb_refl in P. simpl in P. lia.
    - pose proof (C woken SIdle) as C1. simpl in C1.
      assert (cnt woken (<[i := SIdle]> (s_th s)) = 0); [|lia]. apply cnt_zero. intros j q Hj.
      destruct (decide (j = i)) as [->|Hn]; [rewrite list_lookup_insert in Hj by done; by injection Hj as <-|].
      rewrite list_lookup_insert_ne in Hj by done. pose proof (OU _ _ Hj Hn). by destruct q.
    - apply cnt_zero. intros j q Hj. destruct (sgn q) eqn:Eq; [|done].
      assert (j = i) by (apply (inm_one s j i q SD8 c0); [done..|by destruct q|done]). subst j.
      rewrite Ei in Hj. injection Hj as <-. done. }
  unfold avail, ups, downs in *.
  destruct s as [m c wt wk th tr]. cbn [s_mtx s_cnt s_wt s_wk s_th s_tr] in *.
  destruct pc, a; cbn [s_exec] in E; try discriminate E.
  all: repeat match type of E with
       | context [match ?b with Some _ => _ | None => _ end] => destruct b as [[? ?]|] eqn:? || destruct b eqn:?
       end; try discriminate E; injection E as <-.
  all: try match goal with H : wk_take _ _ = Some _ |- _ => apply wk_take_occ in H as [WK1 WK2] end.
  all: repeat match goal with |- context [if decide ?b then _ else _] => destruct (decide b) end.
  all: split; cbn [s_th s_tr s_cnt s_wk]; [apply L; try done|].
  all: match goal with |- context [<[_ := ?q]> _] => 
       pose proof (C woken q) as C1; pose proof (C sgn q) as C2; pose proof (C raised q) as C3 end.
  all: simpl in C1, C2, C3; unfold avail; cbn [s_th s_cnt s_wk]; unfold ups, downs; rewrite !cnt_app, ?app_length; cbn [cnt Nat.b2n length].
  all: try (specialize (S2 eq_refl)). all: try (specialize (S8 eq_refl)); destruct_and?; subst; cbn [length] in *.
  all: repeat match goal with |- context [if decide ?b then _ else _] => destruct (decide b) end.
  all: repeat match goal with H : context [if decide ?b then _ else _] |- _ => destruct (decide b) end.
  all: lia.
Qed.
