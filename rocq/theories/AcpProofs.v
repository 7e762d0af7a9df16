(** Proofs about the services of the ACPI interpreter. *)
From Verif Require Import Base AcpModel AcpSpec.

(** ** Words in memory *)

Lemma le_length k n : length (le k n) = k.
Proof. revert n. induction k as [|k IH]; intros n; cbn [le length]; [|rewrite IH]; reflexivity. Qed.

Lemma unle_le k n : (n < 256 ^ N.of_nat k)%N → unle (le k n) = n.
Proof.
  revert n. induction k as [|k IH]; intros n H; cbn [le unle].
  - change (256 ^ N.of_nat 0)%N with 1%N in H. lia.
  - rewrite IH.
    + pose proof (N.div_mod n 256 ltac:(lia)) as D. rewrite D at 3.
      apply N.add_comm.
    + apply N.div_lt_upper_bound; [lia|].
      rewrite Nat2N.inj_succ, N.pow_succ_r' in H. exact H.
Qed.

Lemma load_store mem a d : load (store mem a d) a (length d) = d.
Proof.
  unfold load. apply (nth_ext _ _ 0%N 0%N).
  - rewrite map_length, seq_length. reflexivity.
  - intros i Hi. rewrite map_length, seq_length in Hi.
    rewrite (nth_indep _ 0%N (store mem a d (a + N.of_nat 0)%N))
      by (rewrite map_length, seq_length; exact Hi).
    rewrite (map_nth (λ i, store mem a d (a + N.of_nat i)%N)).
    rewrite seq_nth by exact Hi. unfold store.
    replace (a <=? a + N.of_nat (0 + i))%N with true by (symmetry; apply N.leb_le; lia).
    replace (a + N.of_nat (0 + i) <? a + N.of_nat (length d))%N with true
      by (symmetry; apply N.ltb_lt; lia).
    cbn [andb]. f_equal. lia.
Qed.

Lemma load_other mem a d b k :
  (∀ x, (a ≤ x < a + N.of_nat (length d))%N → (b ≤ x < b + N.of_nat k)%N → False) →
  load (store mem a d) b k = load mem b k.
Proof.
  intros H. unfold load. apply map_ext_in. intros i Hi. apply in_seq in Hi. unfold store.
  destruct ((a <=? b + N.of_nat i) && (b + N.of_nat i <? a + N.of_nat (length d)))%N eqn:E;
    [|reflexivity].
  apply andb_true_iff in E as [E1 E2]. apply N.leb_le in E1. apply N.ltb_lt in E2.
  exfalso. apply (H (b + N.of_nat i)%N); lia.
Qed.

(** ** The blocks of the interpreter *)

Definition whole (b : N * N) : N * N := (b.1 - 16, b.2 + 16)%N.

Definition apart (b c : N * N) : Prop :=
  ∀ x, (b.1 - 16 ≤ x < b.1 + b.2)%N → (c.1 - 16 ≤ x < c.1 + c.2)%N → False.

Fixpoint pairwise (l : list (N * N)) : Prop :=
  match l with [] => True | b :: l' => Forall (apart b) l' ∧ pairwise l' end.

Lemma apart_sym b c : apart b c → apart c b.
Proof. intros H x A B. exact (H x B A). Qed.

Lemma pairwise_in l b c : pairwise l → b ∈ l → c ∈ l → b = c ∨ apart b c.
Proof.
  induction l as [|d l IH]; intros P B C; [inversion B|].
  destruct P as [F P]. rewrite stdpp.list.Forall_forall in F.
  apply elem_of_cons in B as [-> | B]; apply elem_of_cons in C as [-> | C].
  - left. reflexivity.
  - right. apply F. exact C.
  - right. apply apart_sym. apply F. exact B.
  - apply IH; assumption.
Qed.

Lemma pairwise_remove l1 b l2 : pairwise (l1 ++ b :: l2) → pairwise (l1 ++ l2).
Proof.
  induction l1 as [|c l1 IH]; cbn [app pairwise].
  - intros [_ P]. exact P.
  - intros [F P]. split; [|apply IH; exact P].
    apply Forall_app in F as [F1 F2]. apply Forall_cons in F2 as [_ F2].
    apply Forall_app. split; assumption.
Qed.

Definition good (mem : memory) (b : N * N) : Prop :=
  (16 < b.1)%N ∧ (b.2 + 16 < 2 ^ 64)%N ∧ unle (load mem (b.1 - 16) 8) = (b.2 + 16)%N.

Record inv (heap blocks : list (N * N)) (mem : memory) : Prop := {
  i_good : Forall (good mem) blocks;
  i_apart : pairwise blocks;
  i_heap : heap ≡ₚ map whole blocks }.

Lemma inv_free heap blocks mem p n :
  inv heap blocks mem → (p, n) ∈ blocks →
  os_free mem p = [EGive (p - 16) (n + 16) 8]%N ∧ (p - 16, n + 16)%N ∈ heap.
Proof.
  intros [G _ H] Hin. split.
  - apply (proj1 (stdpp.list.Forall_forall _ _) G) in Hin as (A & _ & C).
    cbn [fst snd] in *. unfold os_free, HEADER_SIZE.
    replace (p =? 0)%N with false by (symmetry; apply N.eqb_neq; lia).
    rewrite C. reflexivity.
  - rewrite H. apply elem_of_list_In. change (p - 16, n + 16)%N with (whole (p, n)).
    apply in_map. apply elem_of_list_In. exact Hin.
Qed.

Lemma reach_inv heap blocks mem : reach heap blocks mem → inv heap blocks mem.
Proof.
  induction 1 as [mem | heap blocks mem size a mem' p R IH A0 Dis S
                  | heap blocks mem size mem' es R IH S
                  | heap blocks mem p n a v mem' es R IH Hin Ha S
                  | h1 h2 b1 b2 mem p n mem' a size align R IH S].
  - split; [constructor|exact Logic.I|reflexivity].
  - cbn [step] in S. unfold os_allocate, HEADER_SIZE in S.
    destruct (size + 16 <? 2 ^ 64)%N eqn:L; [|discriminate]. apply N.ltb_lt in L.
    remember (le 8 (size + 16)%N) as w eqn:Ew.
    injection S as <- <-. destruct IH as [G P H].
    assert (Lw : length w = 8) by (rewrite Ew; apply le_length).
    assert (Ap : Forall (apart (a + 16, size)%N) blocks).
    { apply stdpp.list.Forall_forall. intros [q m] Hq x X1 X2. cbn [fst snd] in *.
      pose proof (proj1 (stdpp.list.Forall_forall _ _) G _ Hq) as (Q & _ & _). cbn [fst] in Q.
      apply (Dis (q - 16)%N (m + 16)%N x).
      - rewrite H. apply elem_of_list_In. change (q - 16, m + 16)%N with (whole (q, m)).
        apply in_map. apply elem_of_list_In. exact Hq.
      - lia.
      - lia. }
    split.
    + constructor.
      * split; cbn [fst snd]; [lia|]. split; [exact L|].
        replace (a + 16 - 16)%N with a by lia.
        pose proof (load_store mem a w) as LS. rewrite Lw in LS.
        rewrite LS, Ew. apply unle_le. exact L.
      * apply stdpp.list.Forall_forall. intros [q m] Hq.
        pose proof (proj1 (stdpp.list.Forall_forall _ _) G _ Hq) as (Q1 & Q2 & Q3).
        split; [exact Q1|]. split; [exact Q2|]. rewrite load_other; [exact Q3|].
        rewrite Lw. cbn [fst snd] in *. intros x X1 X2.
        apply (proj1 (stdpp.list.Forall_forall _ _) Ap _ Hq x); cbn [fst snd]; [lia|].
        change (N.of_nat 8) with 8%N in *. lia.
    + split; [exact Ap|exact P].
    + cbn [map]. unfold whole at 1. cbn [fst snd]. replace (a + 16 - 16)%N with a by lia.
      apply Permutation_cons; [reflexivity|exact H].
  - cbn [step] in S. unfold os_allocate in S. destruct (_ <? _)%N; [|discriminate].
    injection S as <- <-. exact IH.
  - cbn [step] in S. injection S as <- <-. destruct IH as [G P H]. split; [|exact P|exact H].
    apply stdpp.list.Forall_forall. intros [q m] Hq.
    pose proof (proj1 (stdpp.list.Forall_forall _ _) G _ Hq) as (Q1 & Q2 & Q3).
    split; [exact Q1|]. split; [exact Q2|]. rewrite load_other; [exact Q3|].
    cbn [fst snd length] in *. change (N.of_nat 8) with 8%N. change (N.of_nat 1) with 1%N.
    intros x X1 X2.
    destruct (pairwise_in _ _ _ P Hin Hq) as [E|E].
    + injection E as -> ->. lia.
    + apply (E x); cbn [fst snd]; lia.
  - cbn [step] in S.
    assert (Hin : (p, n) ∈ b1 ++ (p, n) :: b2) by (apply elem_of_app; right; left).
    destruct (inv_free _ _ _ _ _ IH Hin) as [F _]. rewrite F in S.
    injection S as <- <- <- <-. destruct IH as [G P H]. split.
    + apply Forall_app in G as [G1 G2]. apply Forall_cons in G2 as [_ G2].
      apply Forall_app. split; assumption.
    + eapply pairwise_remove. exact P.
    + rewrite map_app in *. cbn [map] in H.
      change (whole (p, n)) with (p - 16, n + 16)%N in H.
      rewrite <- !Permutation_middle in H. apply Permutation_cons_inv in H. exact H.
Qed.

(** ** PCI *)

Lemma enum (k : nat) (P : N → bool) :
  forallb P (map N.of_nat (seq 0 k)) = true → ∀ x, (x < N.of_nat k)%N → P x = true.
Proof.
  intros H x Hx. rewrite forallb_forall in H. apply H. apply in_map_iff.
  exists (N.to_nat x). split; [apply N2Nat.id|]. apply in_seq. lia.
Qed.

Lemma enum_eq (k : nat) (f g : N → N) :
  forallb (λ x, (f x =? g x)%N) (map N.of_nat (seq 0 k)) = true →
  ∀ x, (x < N.of_nat k)%N → f x = g x.
Proof. intros H x Hx. apply N.eqb_eq. exact (enum k _ H x Hx). Qed.

Lemma bridge_fields bus dev fn reg addr :
  (bus < 256)%N → (dev < 32)%N → (fn < 8)%N → (reg ≤ 252)%N → (reg mod 4 = 0)%N →
  pci_bus_address bus dev fn reg = Some addr →
  N.land (N.shiftr addr 16) 255 = bus ∧ N.land (N.shiftr addr 11) 31 = dev ∧
  N.land (N.shiftr addr 8) 7 = fn ∧ N.land addr 252 = reg.
Proof.
  intros Hb Hd Hf Hr Ha. unfold pci_bus_address.
  replace (reg <=? 252)%N with true by (symmetry; apply N.leb_le; exact Hr).
  cbn [orb]. intros H.
  apply (f_equal (λ o, match o with Some x => x | None => 0%N end)) in H. cbv beta iota in H.
  subst addr.
  assert (B1 : N.land (N.shiftr (N.shiftl bus 16) 16) 255 = bus)
    by (apply (enum_eq 256 (λ x, N.land (N.shiftr (N.shiftl x 16) 16) 255) (λ x, x)); [vm_compute; reflexivity|exact Hb]).
  assert (B2 : N.land (N.shiftr (N.shiftl bus 16) 11) 31 = 0%N)
    by (apply (enum_eq 256 (λ x, N.land (N.shiftr (N.shiftl x 16) 11) 31) (λ x, 0%N)); [vm_compute; reflexivity|exact Hb]).
  assert (B3 : N.land (N.shiftr (N.shiftl bus 16) 8) 7 = 0%N)
    by (apply (enum_eq 256 (λ x, N.land (N.shiftr (N.shiftl x 16) 8) 7) (λ x, 0%N)); [vm_compute; reflexivity|exact Hb]).
  assert (B4 : N.land (N.shiftl bus 16) 252 = 0%N)
    by (apply (enum_eq 256 (λ x, N.land (N.shiftl x 16) 252) (λ x, 0%N)); [vm_compute; reflexivity|exact Hb]).
  assert (D1 : N.land (N.shiftr (N.shiftl dev 11) 16) 255 = 0%N)
    by (apply (enum_eq 32 (λ x, N.land (N.shiftr (N.shiftl x 11) 16) 255) (λ x, 0%N)); [vm_compute; reflexivity|exact Hd]).
  assert (D2 : N.land (N.shiftr (N.shiftl dev 11) 11) 31 = dev)
    by (apply (enum_eq 32 (λ x, N.land (N.shiftr (N.shiftl x 11) 11) 31) (λ x, x)); [vm_compute; reflexivity|exact Hd]).
  assert (D3 : N.land (N.shiftr (N.shiftl dev 11) 8) 7 = 0%N)
    by (apply (enum_eq 32 (λ x, N.land (N.shiftr (N.shiftl x 11) 8) 7) (λ x, 0%N)); [vm_compute; reflexivity|exact Hd]).
  assert (D4 : N.land (N.shiftl dev 11) 252 = 0%N)
    by (apply (enum_eq 32 (λ x, N.land (N.shiftl x 11) 252) (λ x, 0%N)); [vm_compute; reflexivity|exact Hd]).
  assert (F1 : N.land (N.shiftr (N.shiftl fn 8) 16) 255 = 0%N)
    by (apply (enum_eq 8 (λ x, N.land (N.shiftr (N.shiftl x 8) 16) 255) (λ x, 0%N)); [vm_compute; reflexivity|exact Hf]).
  assert (F2 : N.land (N.shiftr (N.shiftl fn 8) 11) 31 = 0%N)
    by (apply (enum_eq 8 (λ x, N.land (N.shiftr (N.shiftl x 8) 11) 31) (λ x, 0%N)); [vm_compute; reflexivity|exact Hf]).
  assert (F3 : N.land (N.shiftr (N.shiftl fn 8) 8) 7 = fn)
    by (apply (enum_eq 8 (λ x, N.land (N.shiftr (N.shiftl x 8) 8) 7) (λ x, x)); [vm_compute; reflexivity|exact Hf]).
  assert (F4 : N.land (N.shiftl fn 8) 252 = 0%N)
    by (apply (enum_eq 8 (λ x, N.land (N.shiftl x 8) 252) (λ x, 0%N)); [vm_compute; reflexivity|exact Hf]).
  assert (R : N.land reg 252 = reg).
  { assert (X : (if (reg mod 4 =? 0)%N then N.land reg 252 else reg) = reg).
    { apply (enum_eq 253 (λ x, if (x mod 4 =? 0)%N then N.land x 252 else x) (λ x, x));
        [vm_compute; reflexivity|lia]. }
    rewrite Ha in X. exact X. }
  assert (R1 : N.land (N.shiftr reg 16) 255 = 0%N)
    by (apply (enum_eq 253 (λ x, N.land (N.shiftr x 16) 255) (λ x, 0%N)); [vm_compute; reflexivity|lia]).
  assert (R2 : N.land (N.shiftr reg 11) 31 = 0%N)
    by (apply (enum_eq 253 (λ x, N.land (N.shiftr x 11) 31) (λ x, 0%N)); [vm_compute; reflexivity|lia]).
  assert (R3 : N.land (N.shiftr reg 8) 7 = 0%N)
    by (apply (enum_eq 253 (λ x, N.land (N.shiftr x 8) 7) (λ x, 0%N)); [vm_compute; reflexivity|lia]).
  assert (T1 : N.land (N.shiftr (2 ^ 31) 16) 255 = 0%N) by reflexivity.
  assert (T2 : N.land (N.shiftr (2 ^ 31) 11) 31 = 0%N) by reflexivity.
  assert (T3 : N.land (N.shiftr (2 ^ 31) 8) 7 = 0%N) by reflexivity.
  assert (T4 : N.land (2 ^ 31) 252 = 0%N) by reflexivity.
  rewrite R, !N.shiftr_lor, !N.land_lor_distr_l, B1, B2, B3, B4, D1, D2, D3, D4, F1, F2, F3, F4,
    R, R1, R2, R3, T1, T2, T3, T4.
  rewrite !N.lor_0_l, !N.lor_0_r. repeat split; reflexivity.
Qed.

Lemma config_bytes c bus dev fn reg k j :
  unle (map (λ i, c bus dev fn (reg + 0 + N.of_nat i)%N) (seq j k)) =
  config_value c bus dev fn (reg + N.of_nat j) k.
Proof.
  revert j. induction k as [|k IH]; intros j; cbn [seq map unle config_value]; [reflexivity|].
  rewrite IH. replace (reg + 0 + N.of_nat j)%N with (reg + N.of_nat j)%N by lia.
  replace (reg + N.of_nat (S j))%N with (reg + N.of_nat j + 1)%N by lia. reflexivity.
Qed.

(** ** Root pointer *)

Lemma find_roots_acc ts acc :
  let r := fold_left (λ acc t, match t with
                      | Acpi2 a => (acc.1, a)
                      | Acpi1 a => (a, acc.2)
                      | OtherTable => acc
                      end) ts (acc : N * N) in
  (Acpi2 r.2 ∈ ts) ∨ (r.2 = acc.2 ∧ ∀ a, Acpi2 a ∉ ts).
Proof.
  revert acc. induction ts as [|t ts IH]; intros acc; cbn [fold_left]; cbv zeta in *.
  - right. split; [reflexivity|]. intros a H. inversion H.
  - destruct t as [x|x|].
    + destruct (IH (x, acc.2)) as [A|[A B]]; [left; right; exact A|].
      right. split; [exact A|]. intros a H. apply elem_of_cons in H as [H|H]; [discriminate|].
      exact (B a H).
    + destruct (IH (acc.1, x)) as [A|[A B]]; [left; right; exact A|].
      left. cbn [snd] in A. rewrite A. left.
    + destruct (IH acc) as [A|[A B]]; [left; right; exact A|].
      right. split; [exact A|]. intros a H. apply elem_of_cons in H as [H|H]; [discriminate|].
      exact (B a H).
Qed.
