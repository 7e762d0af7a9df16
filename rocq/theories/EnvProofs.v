(** Proofs about random bytes, the time and parameters. *)
From Verif Require Import Base EnvModel EnvSpec.

(** ** Random bytes *)

Lemma fill_spec rd i buf out r :
  fill rd i buf = (out, r) →
  length out = length buf ∧
  (∀ k, k < drawn rd i (length buf) →
     ∃ x, rd (i + k) = Some x ∧ out !! k = Some (x mod 256)%N) ∧
  (∀ k, drawn rd i (length buf) ≤ k → out !! k = buf !! k) ∧
  match r with
  | None => drawn rd i (length buf) = length buf
  | Some j => j = i + drawn rd i (length buf) ∧ drawn rd i (length buf) < length buf ∧ rd j = None
  end.
Proof.
  revert i out r. induction buf as [|b buf IH]; intros i out r H; cbn [fill] in H.
  - injection H as <- <-. cbn [length drawn]. repeat split; try lia.
  - cbn [length drawn]. destruct (rd i) as [x|] eqn:R.
    + destruct (fill rd (S i) buf) as [o r'] eqn:F. injection H as <- <-.
      destruct (IH _ _ _ F) as (L & A & B & C). cbn [length]. split; [lia|]. split; [|split].
      * intros [|k] Hk.
        -- exists x. rewrite Nat.add_0_r. split; [exact R|reflexivity].
        -- destruct (A k ltac:(lia)) as (y & Ry & Oy). exists y.
           replace (i + S k) with (S i + k) by lia. split; [exact Ry|exact Oy].
      * intros [|k] Hk; [lia|]. cbn. apply B. lia.
      * destruct r' as [j|]; [|lia]. destruct C as (-> & C1 & C2).
        split; [lia|]. split; [lia|exact C2].
    + injection H as <- <-. cbn [length]. split; [reflexivity|]. split; [intros k Hk; lia|].
      split; [reflexivity|]. split; [lia|]. split; [lia|exact R].
Qed.

(** ** Decimal numbers *)

Lemma digit_some b d : digit b = Some d ↔ (48 ≤ b ≤ 57)%N ∧ d = (b - 48)%N.
Proof.
  unfold digit. destruct ((48 <=? b) && (b <=? 57))%N eqn:E.
  - apply andb_true_iff in E as [E1 E2]. apply N.leb_le in E1. apply N.leb_le in E2.
    split; [intros H; injection H as <-; split; [lia|reflexivity]|intros [_ ->]; reflexivity].
  - split; [discriminate|]. intros [[H1 H2] _].
    apply N.leb_le in H1. apply N.leb_le in H2. rewrite H1, H2 in E. discriminate.
Qed.

Lemma number_ge s a : (a ≤ fold_left (λ n b, (n * 10 + (b - 48))%N) s a)%N.
Proof.
  revert a. induction s as [|b s IH]; intros a; cbn [fold_left]; [lia|].
  specialize (IH (a * 10 + (b - 48))%N). lia.
Qed.

Lemma parse_digits_ok s a :
  Forall (λ b, (48 ≤ b ≤ 57)%N) s →
  (fold_left (λ n b, (n * 10 + (b - 48))%N) s a < 2 ^ 64)%N →
  parse_digits a s = Some (fold_left (λ n b, (n * 10 + (b - 48))%N) s a).
Proof.
  intros F. revert a. induction F as [|b s Hb F IH]; intros a H; cbn [parse_digits fold_left] in *;
    [reflexivity|].
  replace (digit b) with (Some (b - 48)%N) by (symmetry; apply digit_some; split; [exact Hb|reflexivity]).
  cbv zeta.
  pose proof (number_ge s (a * 10 + (b - 48))%N) as G.
  replace (a * 10 + (b - 48) <? 2 ^ 64)%N with true by (symmetry; apply N.ltb_lt; lia).
  apply IH. exact H.
Qed.

Lemma parse_digits_inv s a n :
  parse_digits a s = Some n →
  Forall (λ b, (48 ≤ b ≤ 57)%N) s ∧ n = fold_left (λ n b, (n * 10 + (b - 48))%N) s a ∧
  ((a < 2 ^ 64)%N → (n < 2 ^ 64)%N).
Proof.
  revert a. induction s as [|b s IH]; intros a H; cbn [parse_digits fold_left] in *.
  - injection H as <-. split; [constructor|]. split; [reflexivity|auto].
  - destruct (digit b) as [d|] eqn:D; [|discriminate]. apply digit_some in D as [D1 ->].
    cbv zeta in H. destruct (a * 10 + (b - 48) <? 2 ^ 64)%N eqn:L; [|discriminate].
    apply N.ltb_lt in L. destruct (IH _ H) as (F & E & B).
    split; [constructor; assumption|]. split; [exact E|]. intros _. apply B. exact L.
Qed.

(** The text that is accepted: decimal, perhaps after a plus sign, below 2^64. *)
Lemma parse_spec s n :
  parse s = Some n ↔
  ∃ t, (s = t ∨ s = 43%N :: t) ∧ decimal t ∧ number t = n ∧ (n < 2 ^ 64)%N.
Proof.
  split.
  - intros H. destruct s as [|b s]; [discriminate|]. cbn [parse] in H.
    destruct (b =? 43)%N eqn:E.
    + apply N.eqb_eq in E. subst b. destruct s as [|c s]; [discriminate|].
      destruct (parse_digits_inv _ _ _ H) as (F & En & B).
      exists (c :: s). split; [right; reflexivity|]. split; [split; [discriminate|exact F]|].
      split; [symmetry; exact En|apply B; lia].
    + destruct (parse_digits_inv _ _ _ H) as (F & En & B).
      exists (b :: s). split; [left; reflexivity|]. split; [split; [discriminate|exact F]|].
      split; [symmetry; exact En|apply B; lia].
  - intros (t & S & [Ne F] & En & B). unfold number in En.
    assert (P : parse_digits 0 t = Some n).
    { rewrite <- En in B. rewrite (parse_digits_ok _ _ F B), En. reflexivity. }
    destruct S as [-> | ->].
    + destruct t as [|b t]; [contradiction|]. cbn [parse].
      replace (b =? 43)%N with false; [exact P|].
      symmetry. apply N.eqb_neq. apply Forall_cons in F as [F _]. lia.
    + cbn [parse]. rewrite N.eqb_refl. destruct t; [contradiction|]. exact P.
Qed.

Lemma show_aux_spec fuel n acc :
  (n < 10 ^ N.of_nat fuel)%N → fuel ≠ 0 →
  ∃ t, show_aux fuel n acc = t ++ acc ∧ decimal t ∧ number t = n ∧ length t ≤ fuel.
Proof.
  revert n acc. induction fuel as [|k IH]; intros n acc H Hf; [contradiction|].
  cbn [show_aux].
  pose proof (N.mod_lt n 10 ltac:(lia)) as Hm.
  pose proof (N.div_mod n 10 ltac:(lia)) as Hd.
  destruct (n <? 10)%N eqn:E.
  - apply N.ltb_lt in E. rewrite N.mod_small by exact E. exists [(48 + n)%N].
    split; [reflexivity|]. split; [split; [discriminate|constructor; [lia|constructor]]|].
    split; [unfold number; cbn [fold_left]; lia|cbn [length]; lia].
  - apply N.ltb_ge in E.
    assert (Hk : k ≠ 0).
    { intros ->. change (10 ^ N.of_nat 1)%N with 10%N in H. lia. }
    destruct (IH (n / 10)%N ((48 + n mod 10)%N :: acc)) as (t & Et & [Ne F] & Nt & Lt).
    { apply N.div_lt_upper_bound; [lia|]. rewrite Nat2N.inj_succ, N.pow_succ_r' in H. exact H. }
    { exact Hk. }
    exists (t ++ [(48 + n mod 10)%N]). rewrite Et, <- app_assoc. split; [reflexivity|].
    split; [split|split].
    + destruct t; discriminate.
    + apply Forall_app. split; [exact F|]. constructor; [|constructor].
      clear - Hm. revert Hm. generalize (n mod 10)%N. intros r Hm. lia.
    + unfold number in *. rewrite fold_left_app, Nt. cbn [fold_left].
      clear - Hd. revert Hd. generalize (n / 10)%N (n mod 10)%N. intros q r Hd. lia.
    + rewrite app_length. cbn [length]. lia.
Qed.

Lemma show_fuel n : (n < 10 ^ N.of_nat (S (N.to_nat (N.log2 n))))%N.
Proof.
  rewrite Nat2N.inj_succ, N2Nat.id.
  destruct (N.eq_dec n 0) as [-> | Hn]; [reflexivity|].
  pose proof (N.log2_spec n ltac:(lia)) as [_ L].
  eapply N.lt_le_trans; [exact L|]. apply N.pow_le_mono_l. lia.
Qed.

Lemma show_spec n : decimal (show n) ∧ number (show n) = n.
Proof.
  destruct (show_aux_spec _ n [] (show_fuel n)) as (t & E & D & Nn & _); [discriminate|].
  unfold show. rewrite E, app_nil_r. split; assumption.
Qed.

(** A number below 2^64 has at most 20 digits. *)
Lemma show_aux_more k fuel n acc :
  (n < 10 ^ N.of_nat fuel)%N → fuel ≠ 0 → show_aux (k + fuel) n acc = show_aux fuel n acc.
Proof.
  revert n acc. induction fuel as [|f IH]; intros n acc H Hf; [contradiction|].
  rewrite Nat.add_succ_r. cbn [show_aux]. destruct (n <? 10)%N eqn:E; [reflexivity|].
  apply N.ltb_ge in E. apply IH.
  - apply N.div_lt_upper_bound; [lia|]. rewrite Nat2N.inj_succ, N.pow_succ_r' in H. exact H.
  - intros ->. change (10 ^ N.of_nat 1)%N with 10%N in H. lia.
Qed.

Lemma show_length n : (n < 2 ^ 64)%N → length (show n) ≤ 20.
Proof.
  intros H. assert (H20 : (n < 10 ^ N.of_nat 20)%N).
  { eapply N.lt_trans; [exact H|]. reflexivity. }
  destruct (show_aux_spec 20 n [] H20) as (t & E & _ & _ & L); [discriminate|].
  unfold show. set (f := S (N.to_nat (N.log2 n))).
  assert (Es : show_aux f n [] = show_aux 20 n []).
  { destruct (le_lt_dec f 20) as [Lf|Lf].
    - replace 20 with ((20 - f) + f) at 1 by lia.
      rewrite show_aux_more; [reflexivity|apply show_fuel|discriminate].
    - replace f with ((f - 20) + 20) by lia.
      rewrite show_aux_more; [reflexivity|exact H20|discriminate]. }
  rewrite Es, E, app_nil_r. exact L.
Qed.

Lemma c_string_app t rest : Forall (λ b, b ≠ 0%N) t → c_string (t ++ 0%N :: rest) = t.
Proof.
  induction 1 as [|b t Hb _ IH]; cbn [app c_string]; [reflexivity|].
  replace (b =? 0)%N with false by (symmetry; apply N.eqb_neq; exact Hb). rewrite IH. reflexivity.
Qed.

(** ** Time *)

Lemma as_i64_small n : (n < 2 ^ 63)%N → as_i64 n = Z.of_N n.
Proof.
  intros H. unfold as_i64.
  change (2 ^ 63)%N with 9223372036854775808%N in H.
  change (2 ^ 63)%Z with 9223372036854775808%Z. change (2 ^ 64)%Z with 18446744073709551616%Z.
  rewrite Z.mod_small by lia.
  replace (Z.of_N n <? 9223372036854775808)%Z with true by (symmetry; apply Z.ltb_lt; lia).
  reflexivity.
Qed.

Lemma nanos_split t : (Z.of_N (as_secs t) * 1000000000 + Z.of_N (subsec_nanos t) = Z.of_N t)%Z.
Proof.
  unfold as_secs, subsec_nanos. pose proof (N.div_mod t 1000000000 ltac:(lia)) as H. lia.
Qed.
