(** C11: the kernel's distributed reader-writer lock. *)
From Verif Require Import Base RwModel.

(** ** Specification *)

(** Thread [i] is at [pc]. *)
Definition at_pc (s : rwst) (i : nat) (pc : rwpc) : Prop := exists t, rw_th s !! i = Some (t, pc).
(** It holds the lock. *)
Definition reading (s : rwst) (i : nat) : Prop := at_pc s i RHeld.
Definition writing (s : rwst) (i : nat) : Prop := at_pc s i WHeld.

(** States of executions in which compare_exchange_weak fails only if the value differs
    (true of x86-64), resp. all executions. *)
Definition no_spurious (l : list (nat * rwact)) : Prop := Forall (fun x => x.2 <> ASpurious) l.

(** ** Counting threads *)

Fixpoint cnt {A} (P : A -> bool) (l : list A) : nat :=
  match l with [] => 0 | x :: l => Nat.b2n (P x) + cnt P l end.

Lemma cnt_insert {A} (P : A -> bool) l i x y : l !! i = Some x ->
  cnt P (<[i := y]> l) + Nat.b2n (P x) = cnt P l + Nat.b2n (P y).
Proof.
  revert i. induction l as [|z l IH]; intros i H; [done|].
  destruct i as [|i]; simpl in *.
  - injection H as ->. lia.
  - specialize (IH i H). lia.
Qed.
Lemma cnt_pos {A} (P : A -> bool) l i x : l !! i = Some x -> P x = true -> 0 < cnt P l.
Proof.
  revert i. induction l as [|z l IH]; intros i H HP; [done|].
  destruct i as [|i]; simpl in *.
  - injection H as ->. rewrite HP. simpl. lia.
  - specialize (IH i H HP). lia.
Qed.
Lemma cnt_two {A} (P : A -> bool) l i j x y : l !! i = Some x -> l !! j = Some y -> i <> j ->
  P x = true -> P y = true -> 1 < cnt P l.
Proof.
  revert i j. induction l as [|z l IH]; intros i j Hi Hj Hn Hx Hy; [done|].
  destruct i as [|i], j as [|j]; simpl in *; [done| | |].
  - injection Hi as ->. pose proof (cnt_pos P l j y Hj Hy). rewrite Hx. simpl. lia.
  - injection Hj as ->. pose proof (cnt_pos P l i x Hi Hx). rewrite Hy. simpl. lia.
  - assert (i <> j) by congruence. specialize (IH i j Hi Hj H Hx Hy). lia.
Qed.
Lemma cnt_zero {A} (P : A -> bool) l : (forall i x, l !! i = Some x -> P x = false) -> cnt P l = 0.
Proof.
  induction l as [|z l IH]; intros H; [done|]. simpl.
  rewrite (H 0 z eq_refl). apply IH. intros i x. apply (H (S i)).
Qed.

(** ** Invariant *)

Definition wr_pc (x : nat * rwpc) : bool :=
  match x.2 with WScan _ | WHeld | WPanic => true | _ => false end.
Definition rd_pc (k : nat) (x : nat * rwpc) : bool :=
  (x.1 =? k) && match x.2 with RCheck | RDec | RHeld => true | _ => false end.

Record rwinv (n : nat) (s : rwst) : Prop := {
  rwi_len : length (rw_r s) = MAX_READER_THREADS;
  rwi_w : cnt wr_pc (rw_th s) = Nat.b2n (rw_w s);
  rwi_r : forall k c, rw_r s !! k = Some c -> cnt (rd_pc k) (rw_th s) = c;
  rwi_t : forall i t pc, rw_th s !! i = Some (t, pc) ->
    match pc with RCheck | RDec | RHeld => t < MAX_READER_THREADS | _ => True end;
  rwi_scan : forall i t k j u, rw_th s !! i = Some (t, WScan k) -> rw_th s !! j = Some (u, RHeld) ->
    k <= u;
  rwi_held : forall i t j u, rw_th s !! i = Some (t, WHeld) -> rw_th s !! j = Some (u, RHeld) ->
    n `min` MAX_READER_THREADS <= u }.

Lemma rwinv_init n tids : rwinv n (rw_init tids).
Proof.
  assert (H : forall i t pc, map (fun t => (t, RwIdle)) tids !! i = Some (t, pc) -> pc = RwIdle).
  { intros i t pc H. change (map ?f ?l) with (f <$> l) in H.
    apply list_lookup_fmap_Some in H as (x & _ & [= _ ->]). done. }
  split; unfold rw_init; cbn [rw_w rw_r rw_th].
  - apply replicate_length.
  - apply cnt_zero. intros i [t pc] Hi. apply H in Hi as ->. done.
  - intros k c Hk. apply lookup_replicate in Hk as [-> _].
    apply cnt_zero. intros i [t pc] Hi. apply H in Hi as ->. unfold rd_pc. simpl.
    by rewrite andb_false_r.
  - intros i t pc Hi. apply H in Hi as ->. done.
  - intros i t k j u Hi. by apply H in Hi.
  - intros i t j u Hi. by apply H in Hi.
Qed.

Lemma rwinv_step n s i a s' : rwinv n s -> rw_step n s i a = Some s' -> rwinv n s'.
Proof.
  intros [IL IW IR IT IS IH] E. unfold rw_step in E.
  destruct (rw_th s !! i) as [[tid pc]|] eqn:Ei; [|done].
  destruct (rw_exec n (rw_w s) (rw_r s) tid pc a) as [[[w r] pc']|] eqn:Ex; [|done].
  injection E as <-.
  pose proof (fun P => cnt_insert P (rw_th s) i (tid, pc) (tid, pc') Ei) as C.
  assert (Hil : i < length (rw_th s)) by (by eapply lookup_lt_Some).
  assert (L : forall j u q, <[i:=(tid, pc')]> (rw_th s) !! j = Some (u, q) ->
            (j = i /\ u = tid /\ q = pc') \/ (j <> i /\ rw_th s !! j = Some (u, q))).
  { intros j u q Hj. destruct (decide (j = i)) as [->|Hne].
    - left. rewrite list_lookup_insert in Hj by done. by injection Hj as -> ->.
    - right. by rewrite list_lookup_insert_ne in Hj by done. }
  pose proof (C wr_pc) as Cw.
  assert (Wnone : rw_w s = false -> forall j u k, rw_th s !! j = Some (u, WScan k) -> False).
  { intros Hw j u k Hj. pose proof (cnt_pos wr_pc _ _ _ Hj eq_refl). rewrite IW, Hw in H. simpl in H. lia. }
  assert (Wnone' : rw_w s = false -> forall j u, rw_th s !! j = Some (u, WHeld) -> False).
  { intros Hw j u Hj. pose proof (cnt_pos wr_pc _ _ _ Hj eq_refl). rewrite IW, Hw in H. simpl in H. lia. }
  assert (Hself : rd_pc tid (tid, RHeld) = true) by (unfold rd_pc; simpl; by rewrite Nat.eqb_refl).
  assert (Hzero : forall k, rw_r s !! k = Some 0 -> forall j u, rw_th s !! j = Some (u, RHeld) -> u <> k).
  { intros k Hk j u Hj ->. pose proof (IR _ _ Hk) as Hc.
    assert (rd_pc k (k, RHeld) = true) by (unfold rd_pc; simpl; by rewrite Nat.eqb_refl).
    pose proof (cnt_pos (rd_pc k) _ _ _ Hj H). lia. }
  assert (Hother : forall k, rd_pc k (tid, pc) = rd_pc k (tid, pc') ->
             cnt (rd_pc k) (<[i:=(tid, pc')]> (rw_th s)) = cnt (rd_pc k) (rw_th s)).
  { intros k Hk. pose proof (C (rd_pc k)) as Ck. rewrite Hk in Ck. lia. }
  assert (Hlen : forall t c, length (<[t:=c]> (rw_r s)) = MAX_READER_THREADS)
    by (intros; by rewrite insert_length).
  assert (Hsame : r = rw_r s -> (forall k, rd_pc k (tid, pc) = rd_pc k (tid, pc')) ->
     forall k c, r !! k = Some c -> cnt (rd_pc k) (<[i:=(tid, pc')]> (rw_th s)) = c).
  { intros -> Hk k c Hc. rewrite Hother by done. by apply IR. }
  destruct pc, a; simpl in Ex; try discriminate Ex.
  all: repeat match type of Ex with
       | context [if ?b then _ else _] => destruct b eqn:?
       | context [match ?x !! ?k with _ => _ end] => destruct (x !! k) as [[|]|] eqn:?
       end.
  all: injection Ex as <- <- <-.
  all: try (exfalso; match goal with H : rw_w _ = false |- _ => by eapply Wnone' end).
  all: try (exfalso; match goal with H : rw_r _ !! _ = None |- _ =>
         apply lookup_ge_None in H; rewrite IL in H; pose proof (IT _ _ _ Ei); simpl in *; lia end).
  all: try (exfalso; match goal with H : rw_r _ !! _ = Some 0 |- _ => by eapply Hzero end).
  all: split; cbn [rw_w rw_r rw_th]; try done.
  all: try (unfold wr_pc in Cw; cbn [snd Nat.b2n] in Cw; fold wr_pc in Cw; cbn [Nat.b2n] in *; lia).
  all: try (apply Hsame; [done|intros; unfold rd_pc; cbn [fst snd]; by rewrite ?andb_false_r]).
  (* indices of readers *)
  all: try (intros j u q Hj; apply L in Hj as [(-> & -> & ->)|[_ Hj]]; [|by eapply IT];
            first [done | exact (IT _ _ _ Ei)
                  | match goal with H : rw_r _ !! _ = Some _ |- _ => apply lookup_lt_Some in H; rewrite <- IL; exact H end]).
  (* scanning writer against readers *)
  all: try (intros j t k' m u Hj Hm; apply L in Hj as [(-> & -> & Hj)|[_ Hj]];
            apply L in Hm as [(-> & -> & Hm)|[_ Hm]];
            solve [ discriminate | lia | (injection Hj as ->; lia) | eapply IS; eauto
                  | exfalso; eapply Wnone; eauto ]).
  all: try (intros j t m u Hj Hm; apply L in Hj as [(-> & -> & Hj)|[_ Hj]];
            apply L in Hm as [(-> & -> & Hm)|[_ Hm]];
            solve [ discriminate | eapply IH; eauto
                  | exfalso; eapply Wnone'; eauto ]).
  (* counters *)
  all: try (intros k c Hc; match goal with H : rw_th _ !! _ = Some (?t, _) |- _ => destruct (decide (k = t)) as [->|Hk] end;
    [ rewrite list_lookup_insert in Hc by (by eapply lookup_lt_Some); injection Hc as <-;
      match goal with H : rw_th _ !! _ = Some (?t, _) |- _ => pose proof (C (rd_pc t)) as Ck end; unfold rd_pc in Ck at 2 4; cbn [fst snd] in Ck;
      rewrite Nat.eqb_refl in Ck; cbn [andb Nat.b2n] in Ck;
      match goal with H : rw_r _ !! _ = Some _ |- _ => pose proof (IR _ _ H) end; lia
    | rewrite list_lookup_insert_ne in Hc by done; rewrite Hother; [by apply IR|];
      unfold rd_pc; cbn [fst snd]; match goal with |- context [?t =? _] => destruct (Nat.eqb_spec t k); [congruence|done] end ]).
  (* WScan k -> WScan (S k) *)
  - intros j t k' m u Hj Hm. apply L in Hj as [(-> & -> & Hj)|[Hji Hj]];
      apply L in Hm as [(-> & -> & Hm)|[_ Hm]]; try discriminate.
    + injection Hj as ->. pose proof (IS _ _ _ _ _ Ei Hm).
      pose proof (Hzero _ Heqo _ _ Hm). lia.
    + eapply IS; eauto.
  (* WScan k -> WHeld *)
  - intros j t m u Hj Hm. apply L in Hj as [(-> & -> & Hj)|[Hji Hj]];
      apply L in Hm as [(-> & -> & Hm)|[_ Hm]]; try discriminate.
    + pose proof (IS _ _ _ _ _ Ei Hm). apply Nat.ltb_ge in Heqb. rewrite IL in Heqb. lia.
    + eapply IH; eauto.
Qed.

Lemma rw_run_inv n s l s' : rwinv n s -> rw_run n s l = Some s' -> rwinv n s'.
Proof.
  revert s. induction l as [|[i a] l IH]; intros s I E; simpl in E; [by injection E as <-|].
  destruct (rw_step n s i a) as [s1|] eqn:E1; [|done]. eapply IH; [|done]. by eapply rwinv_step.
Qed.

(** The index of a thread never changes. *)
Lemma rw_run_tid n s l s' i t pc : rw_run n s l = Some s' -> rw_th s' !! i = Some (t, pc) ->
  exists pc0, rw_th s !! i = Some (t, pc0).
Proof.
  revert s. induction l as [|[j a] l IH]; intros s E H; simpl in E; [injection E as <-; eauto|].
  destruct (rw_step n s j a) as [s1|] eqn:E1; [|done]. destruct (IH _ E H) as [pc0 H0].
  unfold rw_step in E1. destruct (rw_th s !! j) as [[tid q]|] eqn:Ej; [|done].
  destruct (rw_exec _ _ _ _ _ _) as [[[w r] q']|]; [|done]. injection E1 as <-. simpl in H0.
  destruct (decide (i = j)) as [->|Hn].
  - rewrite list_lookup_insert in H0 by (by eapply lookup_lt_Some). injection H0 as -> ->. eauto.
  - rewrite list_lookup_insert_ne in H0 by done. eauto.
Qed.
Lemma rw_tid_in n tids l s i t pc : rw_run n (rw_init tids) l = Some s ->
  rw_th s !! i = Some (t, pc) -> In t tids.
Proof.
  intros E H. destruct (rw_run_tid _ _ _ _ _ _ _ E H) as [pc0 H0]. simpl in H0.
  change (map ?f ?l) with (f <$> l) in H0. apply list_lookup_fmap_Some in H0 as (x & Hx & [= -> _]).
  apply elem_of_list_In. by eapply elem_of_list_lookup_2.
Qed.

(** ** C11 *)

(** For every number of threads, whatever their indices, every interleaving and every
    pattern of spurious failures: two threads never hold the lock for writing; and if the
    writers inspect the indices of all threads, no thread holds the lock for writing while
    another (or the same) holds it for reading. *)
Theorem C11_exclusion n tids l s i j :
  rw_run n (rw_init tids) l = Some s -> writing s i ->
  (writing s j -> i = j) /\
  ((forall t, In t tids -> t < n `min` MAX_READER_THREADS) -> ~ reading s j).
Proof.
  intros E [t Hi]. pose proof (rw_run_inv _ _ _ _ (rwinv_init n tids) E) as I. split.
  - intros [u Hj]. destruct (decide (i = j)) as [|Hn]; [done|exfalso].
    pose proof (cnt_two wr_pc _ _ _ _ _ Hi Hj Hn eq_refl eq_refl) as H.
    rewrite (rwi_w _ _ I) in H. destruct (rw_w s); simpl in H; lia.
  - intros Ht [u Hj]. pose proof (rwi_held _ _ I _ _ _ _ Hi Hj) as H.
    specialize (Ht u (rw_tid_in _ _ _ _ _ _ _ E Hj)). lia.
Qed.

(** The same for a reader that holds the lock. *)
Theorem C11_reader_excludes_writers n tids l s i j :
  rw_run n (rw_init tids) l = Some s -> (forall t, In t tids -> t < n `min` MAX_READER_THREADS) ->
  reading s i -> ~ writing s j.
Proof. intros E Ht Hi Hj. by eapply C11_exclusion. Qed.

(** No operation panics if compare_exchange_weak does not fail spuriously and the indices
    of the threads are within the array. *)
Theorem C11_no_panic n tids l s i :
  rw_run n (rw_init tids) l = Some s -> no_spurious l ->
  (forall t, In t tids -> t < MAX_READER_THREADS) ->
  ~ at_pc s i WPanic /\ ~ at_pc s i RwPanic.
Proof.
  intros E NS Ht.
  assert (G : forall s0 s1, rwinv n s0 -> (forall j t pc, rw_th s0 !! j = Some (t, pc) ->
             t < MAX_READER_THREADS /\ pc <> WPanic /\ pc <> RwPanic) ->
             rw_run n s0 l = Some s1 -> forall j t pc, rw_th s1 !! j = Some (t, pc) ->
             pc <> WPanic /\ pc <> RwPanic).
  { clear E. induction l as [|[k a] l IH]; intros s0 s1 I P E j t pc H; simpl in E.
    - injection E as <-. apply P in H. tauto.
    - destruct (rw_step n s0 k a) as [s2|] eqn:E2; [|done].
      apply Forall_cons in NS as [Na NS]. simpl in Na.
      eapply (IH NS s2 s1); [by eapply rwinv_step| |done..].
      clear IH E H j t pc. intros j t pc H.
      unfold rw_step in E2. destruct (rw_th s0 !! k) as [[u q]|] eqn:Ek; [|done].
      destruct (rw_exec _ _ _ _ _ _) as [[[w r] q']|] eqn:Ex; [|done]. injection E2 as <-. simpl in H.
      destruct (decide (j = k)) as [->|Hn].
      2: { rewrite list_lookup_insert_ne in H by done. by eapply P. }
      rewrite list_lookup_insert in H by (by eapply lookup_lt_Some). injection H as -> ->.
      destruct (P _ _ _ Ek) as (Hlt & _). split; [done|].
      assert (Hsome : exists c, rw_r s0 !! t = Some c).
      { apply lookup_lt_is_Some. by rewrite (rwi_len _ _ I). }
      destruct Hsome as [c Hc].
      assert (HW : q = WHeld -> rw_w s0 = true).
      { intros ->. pose proof (cnt_pos wr_pc _ _ _ Ek eq_refl) as Hp. rewrite (rwi_w _ _ I) in Hp.
        destruct (rw_w s0); simpl in Hp; [done|lia]. }
      assert (HR : q = RHeld -> c <> 0).
      { intros -> ->. pose proof (rwi_r _ _ I _ _ Hc) as Hz.
        assert (rd_pc t (t, RHeld) = true) by (unfold rd_pc; simpl; by rewrite Nat.eqb_refl).
        pose proof (cnt_pos (rd_pc t) _ _ _ Ek H). lia. }
      destruct q, a; simpl in Ex; rewrite ?Hc in Ex; try done.
      all: try rewrite (HW eq_refl) in Ex.
      all: try (destruct c; [by destruct (HR eq_refl)|]).
      all: repeat match type of Ex with
           | context [if ?b then _ else _] => destruct b eqn:?
           | context [match ?x !! ?k with _ => _ end] => destruct (x !! k) as [[|]|] eqn:?
           end.
      all: by injection Ex as <- <- <-. }
  assert (P0 : forall j t pc, rw_th (rw_init tids) !! j = Some (t, pc) ->
             t < MAX_READER_THREADS /\ pc <> WPanic /\ pc <> RwPanic).
  { intros j t pc H. simpl in H. change (map ?f ?l) with (f <$> l) in H.
    apply list_lookup_fmap_Some in H as (x & Hx & [= -> ->]). split; [|done].
    apply Ht, elem_of_list_In. by eapply elem_of_list_lookup_2. }
  pose proof (G _ _ (rwinv_init n tids) P0 E) as Q.
  split; intros [t H]; apply Q in H; tauto.
Qed.

(** When no operation is running the lock is free: nothing acquired was not released. *)
Theorem C11_all_released n tids l s :
  rw_run n (rw_init tids) l = Some s -> (forall i t pc, rw_th s !! i = Some (t, pc) -> pc = RwIdle) ->
  rw_w s = false /\ forall k c, rw_r s !! k = Some c -> c = 0.
Proof.
  intros E H. pose proof (rw_run_inv _ _ _ _ (rwinv_init n tids) E) as I. split.
  - pose proof (rwi_w _ _ I) as W. rewrite cnt_zero in W; [by destruct (rw_w s)|].
    intros i [t pc] Hi. by rewrite (H _ _ _ Hi).
  - intros k c Hc. rewrite <- (rwi_r _ _ I _ _ Hc). apply cnt_zero.
    intros i [t pc] Hi. rewrite (H _ _ _ Hi). unfold rd_pc. simpl. by rewrite andb_false_r.
Qed.

Lemma rw_run_app n s l1 l2 : rw_run n s (l1 ++ l2) =
  match rw_run n s l1 with Some s' => rw_run n s' l2 | None => None end.
Proof.
  revert s. induction l1 as [|[i a] l1 IH]; intros s; simpl; [done|].
  destruct (rw_step n s i a); [apply IH|done].
Qed.

Lemma rw_scan n r th i t k : rw_th (mkRw true r th) !! i = Some (t, WScan k) ->
  (forall j c, r !! j = Some c -> c = 0) -> k <= n `min` length r ->
  rw_run n (mkRw true r th) (replicate (S (n `min` length r - k)) (i, AStep)) =
  Some (mkRw true r (<[i := (t, WHeld)]> th)).
Proof.
  intros Hi Hz Hk. remember (n `min` length r - k) as d eqn:Hd. revert th k Hi Hk Hd.
  induction d as [|d IH]; intros th k Hi Hk Hd.
  - simpl. unfold rw_step. simpl in *. rewrite Hi. cbn [rw_exec].
    destruct (Nat.ltb_spec k (n `min` length r)); [lia|done].
  - change (replicate (S (S d)) (i, AStep)) with ((i, AStep) :: replicate (S d) (i, AStep)).
    cbn [rw_run]. unfold rw_step at 1. simpl in Hi. cbn [rw_th rw_w rw_r]. rewrite Hi. cbn [rw_exec].
    destruct (Nat.ltb_spec k (n `min` length r)); [|lia].
    destruct (lookup_lt_is_Some_2 r k ltac:(lia)) as [c Hc]. rewrite Hc, (Hz _ _ Hc) in *.
    rewrite (IH _ (S k)); [|apply list_lookup_insert; by eapply lookup_lt_Some|lia|lia].
    by rewrite list_insert_insert.
Qed.

(** A free lock can be acquired: a thread running alone gets it for writing after a number
    of its own steps that depends only on the number of counters, and for reading after
    three. *)
Theorem C11_available n tids l s i t :
  rw_run n (rw_init tids) l = Some s -> (forall i t pc, rw_th s !! i = Some (t, pc) -> pc = RwIdle) ->
  rw_th s !! i = Some (t, RwIdle) -> t < MAX_READER_THREADS ->
  (exists s', rw_run n s ((i, AWrite) :: replicate (2 + n `min` MAX_READER_THREADS) (i, AStep)) = Some s'
              /\ writing s' i) /\
  (exists s', rw_run n s [(i, ARead); (i, AStep); (i, AStep); (i, AStep)] = Some s' /\ reading s' i).
Proof.
  intros E H Hi Ht. destruct (C11_all_released _ _ _ _ E H) as [W R].
  pose proof (rw_run_inv _ _ _ _ (rwinv_init n tids) E) as I. pose proof (rwi_len _ _ I) as L.
  destruct s as [w r th]. simpl in *. subst w.
  assert (Hl : i < length th) by (by eapply lookup_lt_Some). split.
  - cbn [rw_run plus]. unfold rw_step at 1. cbn [rw_th rw_w rw_r]. rewrite Hi. cbn [rw_exec].
    change (replicate (S (S ?m)) ?x) with (x :: replicate (S m) x).
    cbn [rw_run]. unfold rw_step at 1. cbn [rw_th rw_w rw_r].
    rewrite list_lookup_insert by done. cbn [rw_exec]. rewrite list_insert_insert.
    pose proof (rw_scan n r (<[i:=(t, WScan 0)]> th) i t 0) as S0.
    rewrite Nat.sub_0_r, L in S0. cbn [replicate rw_run] in S0. rewrite S0; [|by apply list_lookup_insert|done|lia].
    eexists. split; [done|]. exists t. simpl. rewrite list_insert_insert. by apply list_lookup_insert.
  - unfold rw_run, rw_step. cbn [rw_th rw_w rw_r]. rewrite Hi. cbn [rw_exec rw_th rw_w rw_r].
    rewrite list_lookup_insert by done. cbn [rw_exec rw_th rw_w rw_r].
    rewrite list_lookup_insert by (by rewrite insert_length). cbn [rw_exec rw_th rw_w rw_r].
    destruct (lookup_lt_is_Some_2 r t) as [c Hc]; [by rewrite L|]. rewrite Hc. cbn [rw_th rw_w rw_r].
    rewrite list_lookup_insert by (by rewrite !insert_length). cbn [rw_exec rw_th rw_w rw_r].
    eexists. split; [done|]. exists t. simpl. by rewrite list_lookup_insert by (by rewrite !insert_length).
Qed.

(** The number of counters a writer waits for is the number of hardware threads of the
    first NUMA node (environment.rs:34-38), but readers use their machine-wide index: on
    two nodes with two threads each, a thread of the second node reads while a thread of
    the first writes. *)
Theorem C11_second_node_refuted : exists l s,
  rw_run 2 (rw_init [0; 1; 2; 3]) l = Some s /\ no_spurious l /\ writing s 0 /\ reading s 2.
Proof.
  eexists [(2, ARead); (2, AStep); (2, AStep); (2, AStep); (0, AWrite); (0, AStep); (0, AStep);
           (0, AStep); (0, AStep)], _. split; [vm_compute; reflexivity|]. split.
  - repeat constructor; done.
  - split; [exists 0|exists 2]; reflexivity.
Qed.

(** write_unlock uses compare_exchange_weak, which may fail spuriously (on architectures
    other than x86-64), and then panics although the caller holds the lock. *)
Theorem C11_spurious_unlock_refuted : exists l s,
  rw_run 1 (rw_init [0]) l = Some s /\ at_pc s 0 WPanic /\
  exists l', l = l' ++ [(0, ASpurious)] /\ no_spurious l'.
Proof.
  eexists ([(0, AWrite); (0, AStep); (0, AStep); (0, AStep)] ++ [(0, ASpurious)]), _.
  split; [vm_compute; reflexivity|]. split; [exists 0; reflexivity|].
  eexists. split; [reflexivity|]. repeat constructor; done.
Qed.

(** The hypotheses are met: two readers (sharing an index with a nested one) hold the lock,
    then a writer gets it after they left. *)
Example C11_hyps_met : exists l1 l2 s1 s2,
  rw_run 2 (rw_init [0; 1; 1]) l1 = Some s1 /\ reading s1 1 /\ reading s1 2 /\
  rw_run 2 s1 l2 = Some s2 /\ writing s2 0 /\
  (forall t, In t [0; 1; 1] -> t < 2 `min` MAX_READER_THREADS).
Proof.
  exists [(1, ARead); (1, AStep); (1, AStep); (1, AStep); (2, ARead); (2, AStep); (2, AStep); (2, AStep)],
    [(0, AWrite); (0, AStep); (0, AStep); (0, AStep); (1, AStep); (2, AStep); (0, AStep); (0, AStep); (0, AStep)].
  eexists _, _. split; [vm_compute; reflexivity|]. split; [by exists 1|]. split; [by exists 1|].
  split; [vm_compute; reflexivity|]. split; [by exists 0|].
  intros t [<-|[<-|[<-|[]]]]; vm_compute; lia.
Qed.

Print Assumptions C11_exclusion.
Print Assumptions C11_reader_excludes_writers.
Print Assumptions C11_no_panic.
Print Assumptions C11_all_released.
Print Assumptions C11_available.
Print Assumptions C11_second_node_refuted.
Print Assumptions C11_spurious_unlock_refuted.
