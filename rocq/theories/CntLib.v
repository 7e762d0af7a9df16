(** Counting the elements of a list that satisfy a test. *)
From Verif Require Import Base.

Fixpoint cnt {A} (P : A -> bool) (l : list A) : nat :=
  match l with [] => 0 | x :: l => Nat.b2n (P x) + cnt P l end.

Lemma cnt_app {A} (P : A -> bool) l k : cnt P (l ++ k) = cnt P l + cnt P k.
Proof. induction l as [|x l IH]; simpl; [done|]. rewrite IH. lia. Qed.
Lemma cnt_insert {A} (P : A -> bool) l i x y : l !! i = Some x ->
  cnt P (<[i := y]> l) + Nat.b2n (P x) = cnt P l + Nat.b2n (P y).
Proof.
  revert i. induction l as [|z l IH]; intros i H; [done|].
  destruct i as [|i]; simpl in *.
  - injection H as ->. lia.
  - specialize (IH i H). lia.
Qed.
Lemma cnt_pos {A} (P : A -> bool) l i x : l !! i = Some x -> P x = true -> 0 < cnt P l.
Proof.
  revert i. induction l as [|z l IH]; intros i H HP; [done|].
  destruct i as [|i]; simpl in *.
  - injection H as ->. rewrite HP. simpl. lia.
  - specialize (IH i H HP). lia.
Qed.
Lemma cnt_two {A} (P : A -> bool) l i j x y : l !! i = Some x -> l !! j = Some y -> i <> j ->
  P x = true -> P y = true -> 1 < cnt P l.
Proof.
  revert i j. induction l as [|z l IH]; intros i j Hi Hj Hn Hx Hy; [done|].
  destruct i as [|i], j as [|j]; simpl in *; [done| | |].
  - injection Hi as ->. pose proof (cnt_pos P l j y Hj Hy). rewrite Hx. simpl. lia.
  - injection Hj as ->. pose proof (cnt_pos P l i x Hi Hx). rewrite Hy. simpl. lia.
  - assert (i <> j) by congruence. specialize (IH i j Hi Hj H Hx Hy). lia.
Qed.
Lemma cnt_zero {A} (P : A -> bool) l : (forall i x, l !! i = Some x -> P x = false) -> cnt P l = 0.
Proof.
  induction l as [|z l IH]; intros H; [done|]. simpl.
  rewrite (H 0 z eq_refl). apply IH. intros i x. apply (H (S i)).
Qed.
Lemma cnt_ex {A} (P : A -> bool) l : 0 < cnt P l -> exists i x, l !! i = Some x /\ P x = true.
Proof.
  induction l as [|z l IH]; simpl; intros H; [lia|].
  destruct (P z) eqn:E; [by exists 0, z|].
  destruct IH as (i & x & Hi & Hx); [simpl in H; lia|]. by exists (S i), x.
Qed.
Lemma cnt_le_length {A} (P : A -> bool) l : cnt P l <= length l.
Proof. induction l as [|z l IH]; simpl; [done|]. destruct (P z); simpl; lia. Qed.
Lemma cnt_replicate {A} (P : A -> bool) n x : cnt P (replicate n x) = n * Nat.b2n (P x).
Proof. induction n as [|n IH]; simpl; [done|]. rewrite IH. done. Qed.
Lemma cnt_ext {A} (P Q : A -> bool) l : (forall x, P x = Q x) -> cnt P l = cnt Q l.
Proof. intros H. induction l as [|z l IH]; simpl; [done|]. by rewrite H, IH. Qed.

(** Occurrences of a number. *)
Definition occ (i : nat) (l : list nat) : nat := cnt (Nat.eqb i) l.
Lemma occ_app i l k : occ i (l ++ k) = occ i l + occ i k.
Proof. apply cnt_app. Qed.
Lemma occ_in i l : i ∈ l <-> 0 < occ i l.
Proof.
  unfold occ. induction l as [|x l IH]; simpl; [split; [by intros ?%elem_of_nil|lia]|].
  rewrite elem_of_cons, IH. destruct (Nat.eqb_spec i x); simpl; [split; [lia|auto]|].
  split; [intros [|]; [done|lia]|auto].
Qed.
Lemma occ_NoDup l : (forall i, occ i l <= 1) -> NoDup l.
Proof.
  induction l as [|x l IH]; intros H; [apply NoDup_nil_2|]. apply stdpp.list.NoDup_cons. split.
  - intros Hx%occ_in. specialize (H x). unfold occ in *. simpl in H. rewrite Nat.eqb_refl in H. simpl in H. lia.
  - apply IH. intros i. specialize (H i). unfold occ in *. simpl in H. lia.
Qed.
