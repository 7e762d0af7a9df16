(** Proofs about setting up the network card. *)
From Verif Require Import Base VmxModel VmxSpec.
Local Open Scope N_scope.

(** An address to which one value is stored has that value in the end. *)
Lemma stores_keep ws : ∀ m a v,
  (∀ w, w ∈ ws → w.1 = a → w.2 = v) → m a = v → fold_left store ws m a = v.
Proof.
  induction ws as [|w ws IH]; intros m a v H E; [exact E|]. cbn [fold_left].
  apply IH; [intros w' Hw; apply H; right; exact Hw|].
  unfold store. destruct (a =? w.1) eqn:Q; [|exact E].
  apply N.eqb_eq in Q. apply (H w); [left|symmetry; exact Q].
Qed.

Lemma stores_value ws : ∀ m a v,
  (a, v) ∈ ws → (∀ w, w ∈ ws → w.1 = a → w.2 = v) → fold_left store ws m a = v.
Proof.
  induction ws as [|w ws IH]; intros m a v Hin H; [inversion Hin|]. cbn [fold_left].
  apply elem_of_cons in Hin as [E|Hin].
  - subst w. apply stores_keep; [intros w' Hw; apply H; right; exact Hw|].
    unfold store. cbn [fst snd]. rewrite N.eqb_refl. reflexivity.
  - apply IH; [exact Hin|]. intros w' Hw. apply H. right. exact Hw.
Qed.

Lemma indices_in n i : i ∈ indices n ↔ i < n.
Proof.
  unfold indices. rewrite elem_of_list_In, in_map_iff. split.
  - intros (k & <- & Hk). apply in_seq in Hk. lia.
  - intros H. exists (N.to_nat i). split; [apply N2Nat.id|]. apply in_seq. lia.
Qed.

(** The stores, record by record. *)
Lemma stores_in buf ntx nrx tx rx w :
  w ∈ queue_stores buf ntx nrx tx rx ↔
  (∃ i f, i < ntx ∧ f ∈ tx_fields (tx i) ∧ w = (buf + 256 * i + f.1, f.2)) ∨
  (∃ i f, i < nrx ∧ f ∈ rx_fields (rx i) ∧ w = (buf + 256 * ntx + 256 * i + f.1, f.2)).
Proof.
  unfold queue_stores. rewrite elem_of_app, !elem_of_list_In, !in_flat_map. split.
  - intros [(i & Hi & Hw)|(i & Hi & Hw)]; apply elem_of_list_In, indices_in in Hi.
    + left. unfold tx_ref in Hw. apply N.ltb_lt in Hi as Hi'. rewrite Hi' in Hw.
      unfold at_place in Hw. apply in_map_iff in Hw as (f & <- & Hf). exists i, f.
      apply elem_of_list_In in Hf. auto.
    + right. unfold rx_ref in Hw. apply N.ltb_lt in Hi as Hi'. rewrite Hi' in Hw.
      unfold at_place in Hw. apply in_map_iff in Hw as (f & <- & Hf). exists i, f.
      apply elem_of_list_In in Hf. auto.
  - intros [(i & f & Hi & Hf & ->)|(i & f & Hi & Hf & ->)]; [left|right]; exists i;
      (split; [apply elem_of_list_In, indices_in; exact Hi|]); apply N.ltb_lt in Hi.
    + unfold tx_ref. rewrite Hi. unfold at_place. apply in_map_iff. exists f.
      split; [reflexivity|]. apply elem_of_list_In. exact Hf.
    + unfold rx_ref. rewrite Hi. unfold at_place. apply in_map_iff. exists f.
      split; [reflexivity|]. apply elem_of_list_In. exact Hf.
Qed.

Lemma tx_offs q f : f ∈ tx_fields q → f.1 < 256.
Proof.
  intros H. unfold tx_fields in H. rewrite !elem_of_cons, elem_of_nil in H.
  repeat (destruct H as [->|H]; [cbn; lia|]). contradiction.
Qed.
Lemma rx_offs q f : f ∈ rx_fields q → f.1 < 256.
Proof.
  intros H. unfold rx_fields in H. rewrite !elem_of_cons, elem_of_nil in H.
  repeat (destruct H as [->|H]; [cbn; lia|]). contradiction.
Qed.
Lemma tx_once q f g : f ∈ tx_fields q → g ∈ tx_fields q → f.1 = g.1 → f.2 = g.2.
Proof.
  intros H G. unfold tx_fields in H, G. rewrite !elem_of_cons, elem_of_nil in H, G.
  repeat (destruct H as [->|H]; [repeat (destruct G as [->|G]; [cbn; solve [reflexivity|discriminate]|]); contradiction|]).
  contradiction.
Qed.
Lemma rx_once q f g : f ∈ rx_fields q → g ∈ rx_fields q → f.1 = g.1 → f.2 = g.2.
Proof.
  intros H G. unfold rx_fields in H, G. rewrite !elem_of_cons, elem_of_nil in H, G.
  repeat (destruct H as [->|H]; [repeat (destruct G as [->|G]; [cbn; solve [reflexivity|discriminate]|]); contradiction|]).
  contradiction.
Qed.

Lemma tx_value buf ntx nrx tx rx m i f :
  i < ntx → f ∈ tx_fields (tx i) →
  fold_left store (queue_stores buf ntx nrx tx rx) m (buf + 256 * i + f.1) = f.2.
Proof.
  intros Hi Hf. apply stores_value.
  - apply stores_in. left. exists i, f. auto.
  - intros w Hw E. pose proof (tx_offs _ _ Hf).
    apply stores_in in Hw as [(j & g & Hj & Hg & ->)|(j & g & Hj & Hg & ->)]; cbn [fst snd] in *.
    + pose proof (tx_offs _ _ Hg). assert (j = i) by lia. subst j.
      apply (tx_once (tx i)); [assumption|assumption|lia].
    + pose proof (rx_offs _ _ Hg). lia.
Qed.

Lemma rx_value buf ntx nrx tx rx m i f :
  i < nrx → f ∈ rx_fields (rx i) →
  fold_left store (queue_stores buf ntx nrx tx rx) m (buf + 256 * ntx + 256 * i + f.1) = f.2.
Proof.
  intros Hi Hf. apply stores_value.
  - apply stores_in. right. exists i, f. auto.
  - intros w Hw E. pose proof (rx_offs _ _ Hf).
    apply stores_in in Hw as [(j & g & Hj & Hg & ->)|(j & g & Hj & Hg & ->)]; cbn [fst snd] in *.
    + pose proof (tx_offs _ _ Hg). lia.
    + pose proof (rx_offs _ _ Hg). assert (j = i) by lia. subst j.
      apply (rx_once (rx i)); [assumption|assumption|lia].
Qed.

(** Bits 8k to 8k+7 are a byte. *)
Lemma byte_bits n k : N.land (N.shiftr n (8 * k)) 255 = byte n k.
Proof.
  unfold byte. change 255 with (N.ones 8). rewrite N.land_ones, N.shiftr_div_pow2.
  rewrite N.pow_mul_r. reflexivity.
Qed.

Lemma join a b n : a < 2 ^ n → N.lor a (N.shiftl b n) = a + 2 ^ n * b.
Proof.
  intros H. rewrite N.shiftl_mul_pow2.
  assert (D : N.land a (b * 2 ^ n) = 0).
  { apply N.bits_inj. intros k. rewrite N.land_spec, N.bits_0.
    destruct (N.lt_ge_cases k n) as [Hk|Hk].
    - rewrite N.mul_pow2_bits_low by exact Hk. apply andb_false_r.
    - replace (N.testbit a k) with false; [reflexivity|]. symmetry.
      destruct (N.eq_dec a 0) as [->|Nz]; [apply N.bits_0|]. apply N.bits_above_log2.
      apply N.log2_lt_pow2; [lia|]. apply (N.lt_le_trans _ (2 ^ n)); [exact H|].
      apply N.pow_le_mono_r; lia. }
  rewrite <- N.lxor_lor by exact D. rewrite (N.mul_comm (2 ^ n) b).
  symmetry. apply N.add_nocarry_lxor. exact D.
Qed.

Lemma byte_lt n k : byte n k < 256.
Proof. apply N.mod_lt. lia. Qed.

Lemma retrieve_bytes low high :
  retrieve low high = [byte low 0; byte low 1; byte low 2; byte low 3; byte high 0; byte high 1].
Proof.
  unfold retrieve. rewrite <- !byte_bits. change (8 * 0) with 0. rewrite !N.shiftr_0_r. reflexivity.
Qed.

Lemma byte_step n k : n / 256 ^ k = byte n k + 256 * (n / 256 ^ (k + 1)).
Proof.
  unfold byte. rewrite N.pow_add_r, N.pow_1_r. rewrite <- N.div_div by (try apply N.pow_nonzero; lia).
  rewrite (N.div_mod (n / 256 ^ k) 256) at 1 by lia. lia.
Qed.

Lemma four_bytes n : n < 2 ^ 32 → n = byte n 0 + 256 * (byte n 1 + 256 * (byte n 2 + 256 * byte n 3)).
Proof.
  intros H. pose proof (byte_step n 0) as S0. pose proof (byte_step n 1) as S1.
  pose proof (byte_step n 2) as S2. pose proof (byte_step n 3) as S3.
  change (0 + 1) with 1 in *. change (1 + 1) with 2 in *. change (2 + 1) with 3 in *. change (3 + 1) with 4 in *.
  change (256 ^ 0) with 1 in S0. rewrite N.div_1_r in S0.
  assert (Z : n / 256 ^ 4 = 0) by (apply N.div_small; exact H).
  rewrite Z in S3. rewrite S0 at 1. rewrite S1 at 1. rewrite S2 at 1. rewrite S3 at 1. lia.
Qed.

Lemma two_bytes n : byte n 0 + 256 * byte n 1 = n mod 2 ^ 16.
Proof.
  pose proof (byte_step n 0) as S0. pose proof (byte_step n 1) as S1.
  change (0 + 1) with 1 in *. change (1 + 1) with 2 in *.
  change (256 ^ 0) with 1 in S0. rewrite N.div_1_r in S0.
  pose proof (byte_lt n 0). pose proof (byte_lt n 1).
  apply (N.mod_unique n (2 ^ 16) (n / 256 ^ 2)).
  - change (2 ^ 16) with 65536. lia.
  - change (2 ^ 16) with 65536. rewrite S0 at 1. rewrite S1 at 1. lia.
Qed.

Lemma set_lladdr_eq low high :
  low < 2 ^ 32 → set_lladdr low high = (low, high mod 2 ^ 16).
Proof.
  intros H. unfold set_lladdr. rewrite retrieve_bytes.
  pose proof (four_bytes low H) as F. pose proof (two_bytes high) as T.
  pose proof (byte_lt low 0). pose proof (byte_lt low 1). pose proof (byte_lt low 2).
  pose proof (byte_lt high 0).
  rewrite (join (byte low 0)) by assumption.
  rewrite (join (byte low 0 + 2 ^ 8 * byte low 1)) by (change (2 ^ 8) with 256; change (2 ^ 16) with 65536; lia).
  rewrite (join (byte low 0 + 2 ^ 8 * byte low 1 + 2 ^ 16 * byte low 2))
    by (change (2 ^ 8) with 256; change (2 ^ 16) with 65536; change (2 ^ 24) with 16777216; lia).
  rewrite (join (byte high 0)) by assumption.
  f_equal.
  - rewrite F at 5. change (2 ^ 8) with 256; change (2 ^ 16) with 65536; change (2 ^ 24) with 16777216. lia.
  - rewrite <- T. reflexivity.
Qed.
