(** C79: random bytes, clocks and parameters of the library OS are what
    rumpuser(3) promises. *)
From Verif Require Import Base EnvModel EnvSpec EnvProofs.

(** ** Random bytes *)

(** If the call succeeds it has filled the whole buffer with random bytes and
    says so; it succeeds if and only if the processor has random numbers. *)
Theorem C79_random rd buf r n out :
  getrandom rd buf = (r, n, out) →
  length out = length buf ∧
  (r = 0%Z ↔ ∀ k, k < length buf → rd k ≠ None) ∧
  (r = 0%Z → n = length buf ∧
     ∀ k, k < length buf → ∃ x, rd k = Some x ∧ out !! k = Some (x mod 256)%N).
Proof.
  unfold getrandom. destruct (fill rd 0 buf) as [o j] eqn:F. intros H.
  destruct (fill_spec _ _ _ _ _ F) as (L & A & B & C).
  destruct j as [j|]; injection H as <- <- <-.
  - destruct C as (Ej & C1 & C2). split; [exact L|]. split; [|discriminate].
    split; [discriminate|]. intros X. exfalso. apply (X j); [lia|exact C2].
  - split; [exact L|]. rewrite C in A. split.
    + split; [|reflexivity]. intros _ k Hk. destruct (A k Hk) as (x & Rx & _).
      cbn in Rx. rewrite Rx. discriminate.
    + intros _. split; [reflexivity|exact A].
Qed.
Print Assumptions C79_random.

(** Whatever the result, the bytes it counts are random, no byte after the
    first failure is touched, and the count misses at most one byte. *)
Theorem C79_random_count_partial rd buf r n out :
  getrandom rd buf = (r, n, out) →
  n ≤ drawn rd 0 (length buf) ≤ n + 1 ∧
  (∀ k, k < n → ∃ x, rd k = Some x ∧ out !! k = Some (x mod 256)%N) ∧
  (∀ k, drawn rd 0 (length buf) ≤ k → out !! k = buf !! k).
Proof.
  unfold getrandom. destruct (fill rd 0 buf) as [o j] eqn:F. intros H.
  destruct (fill_spec _ _ _ _ _ F) as (L & A & B & C).
  destruct j as [j|]; injection H as <- <- <-.
  - destruct C as (Ej & C1 & C2). cbn in Ej. subst j. split; [lia|]. split; [|exact B].
    intros k Hk. apply A. lia.
  - split; [lia|]. split; [|exact B]. intros k Hk. apply A. lia.
Qed.
Print Assumptions C79_random_count_partial.

(** The count is not the number of random bytes written. *)
Theorem C79_random_count_refuted :
  ¬ (∀ rd buf r n out, getrandom rd buf = (r, n, out) → n = drawn rd 0 (length buf)).
Proof.
  intros F.
  pose proof (F (λ k, if k <? 2 then Some 7%N else None) [0; 0; 0]%N 1%Z 1 [7; 7; 0]%N eq_refl) as X.
  vm_compute in X. discriminate.
Qed.
Print Assumptions C79_random_count_refuted.

(** ** Clocks *)

(** The monotonic clock is the time since the machine was started, the wall
    clock is that time after the second of the start; the part below a second
    is below a second; other clocks are refused. *)
Theorem C79_clock anchor t clock :
  (anchor + t < 2 ^ 63)%N →
  match clock_gettime anchor t clock with
  | Some (s, ns) =>
      (ns < 1000000000)%N ∧
      ((clock = 1%N ∧ nanos (s, ns) = Z.of_N t) ∨
       (clock = 0%N ∧ nanos (s, ns) = (Z.of_N anchor * 1000000000 + Z.of_N t)%Z))
  | None => clock ≠ 0%N ∧ clock ≠ 1%N
  end.
Proof.
  intros H. pose proof (nanos_split t) as S.
  assert (Hs : (as_secs t ≤ t)%N).
  { unfold as_secs. apply N.div_le_upper_bound; lia. }
  assert (Hn : (subsec_nanos t < 1000000000)%N) by (apply N.mod_lt; lia).
  unfold clock_gettime. unfold CLOCK_ABSMONO, CLOCK_RELWALL.
  destruct (clock =? 1)%N eqn:E1; [|destruct (clock =? 0)%N eqn:E0].
  - apply N.eqb_eq in E1. split; [exact Hn|]. left. split; [exact E1|].
    unfold nanos. cbn [fst snd]. rewrite as_i64_small by lia. exact S.
  - apply N.eqb_eq in E0. split; [exact Hn|]. right. split; [exact E0|].
    unfold nanos. cbn [fst snd]. rewrite as_i64_small by lia. lia.
  - apply N.eqb_neq in E1. apply N.eqb_neq in E0. split; assumption.
Qed.
Print Assumptions C79_clock.

(** No clock goes backwards, and both run at the same speed. *)
Theorem C79_clock_runs anchor t1 t2 clock a b :
  (anchor + t2 < 2 ^ 63)%N → (t1 ≤ t2)%N →
  clock_gettime anchor t1 clock = Some a → clock_gettime anchor t2 clock = Some b →
  (nanos b - nanos a = Z.of_N t2 - Z.of_N t1)%Z.
Proof.
  intros H L A B.
  pose proof (C79_clock anchor t1 clock ltac:(lia)) as X1. rewrite A in X1.
  pose proof (C79_clock anchor t2 clock ltac:(lia)) as X2. rewrite B in X2.
  destruct a as [s1 n1], b as [s2 n2].
  destruct X1 as [_ [[C1 X1]|[C1 X1]]], X2 as [_ [[C2 X2]|[C2 X2]]]; subst; lia.
Qed.
Print Assumptions C79_clock_runs.

(** ** Parameters *)

(** The number of processors is what the command line says, in decimal and with
    or without a plus sign, and 1 if it says something else.  A buffer of 21
    bytes is enough; the bytes after the text stay as they are.
    Missing: smaller buffers. *)
Theorem C79_processors_partial cmdline buf :
  21 ≤ length buf →
  ∃ out, getparam cmdline n_ncpu buf = Some (0%Z, out) ∧
    length out = length buf ∧
    (∀ k, length (c_string out) < k → out !! k = buf !! k) ∧
    decimal (c_string out) ∧
    (∀ t, cmdline = t ∨ cmdline = 43%N :: t → decimal t → (number t < 2 ^ 64)%N →
       number (c_string out) = number t) ∧
    ((∀ t, cmdline = t ∨ cmdline = 43%N :: t → decimal t → (2 ^ 64 ≤ number t)%N) →
       number (c_string out) = 1%N).
Proof.
  intros L. unfold getparam, param. rewrite bool_decide_eq_true_2 by reflexivity.
  set (n := default 1%N (parse cmdline)).
  assert (Hn : (n < 2 ^ 64)%N).
  { unfold n. destruct (parse cmdline) as [m|] eqn:P; cbn [default]; [|reflexivity].
    apply parse_spec in P as (t & _ & _ & _ & B). exact B. }
  destruct (show_spec n) as [[Ne F] Nn]. pose proof (show_length n Hn) as Ls.
  assert (L1 : length (show n ++ [0%N]) = S (length (show n))) by (rewrite app_length; cbn [length]; lia).
  cbv zeta. replace (length (show n ++ [0%N]) <=? length buf) with true
    by (symmetry; apply Nat.leb_le; lia).
  eexists. split; [reflexivity|].
  assert (Ec : c_string ((show n ++ [0%N]) ++ drop (length (show n ++ [0%N])) buf) = show n).
  { rewrite <- app_assoc. apply c_string_app. eapply Forall_impl; [exact F|].
    cbn beta. intros b Hb. lia. }
  rewrite Ec. split; [|split; [|split; [|split]]].
  - rewrite app_length, drop_length. lia.
  - intros k Hk. rewrite lookup_app_r by lia. rewrite lookup_drop. f_equal. lia.
  - split; assumption.
  - intros t Ht D B. rewrite Nn. unfold n.
    replace (parse cmdline) with (Some (number t)); [reflexivity|]. symmetry.
    apply parse_spec. exists t. split; [exact Ht|]. split; [exact D|]. split; [reflexivity|exact B].
  - intros No. rewrite Nn. unfold n. destruct (parse cmdline) as [m|] eqn:P; [|reflexivity].
    apply parse_spec in P as (t & Ht & D & <- & B). specialize (No t Ht D). lia.
Qed.
Print Assumptions C79_processors_partial.

(** The fixed parameters; any other name gives ENOENT and an unchanged buffer.
    Missing: buffers that are too small. *)
Theorem C79_parameters_partial cmdline name buf :
  13 ≤ length buf → name ≠ n_ncpu →
  ∃ r out, getparam cmdline name buf = Some (r, out) ∧ length out = length buf ∧
    ((name = n_verbose ∧ r = 0%Z ∧ c_string out = [49]%N) ∨
     (name = n_threads ∧ r = 0%Z ∧ c_string out = [49]%N) ∨
     (name = n_hostname ∧ r = 0%Z ∧ c_string out = [98; 116; 101; 115; 116]%N) ∨
     (name = n_memlimit ∧ r = 0%Z ∧ decimal (c_string out) ∧
        number (c_string out) = (512 * 2 ^ 30)%N) ∨
     (name ∉ [n_verbose; n_threads; n_hostname; n_memlimit] ∧ r = 2%Z ∧ out = buf)).
Proof.
  intros L Nn. unfold getparam, param. rewrite bool_decide_eq_false_2 by exact Nn.
  destruct (decide (name = n_verbose)) as [E1|E1].
  { rewrite bool_decide_eq_true_2 by exact E1. cbv zeta.
    replace (length ([49%N] ++ [0%N]) <=? length buf) with true by (symmetry; apply Nat.leb_le; cbn; lia).
    eexists _, _. split; [reflexivity|]. split; [rewrite app_length, drop_length; cbn [length app]; lia|].
    left. split; [exact E1|]. split; reflexivity. }
  rewrite bool_decide_eq_false_2 by exact E1.
  destruct (decide (name = n_threads)) as [E2|E2].
  { rewrite bool_decide_eq_true_2 by exact E2. cbv zeta.
    replace (length ([49%N] ++ [0%N]) <=? length buf) with true by (symmetry; apply Nat.leb_le; cbn; lia).
    eexists _, _. split; [reflexivity|]. split; [rewrite app_length, drop_length; cbn [length app]; lia|].
    right. left. split; [exact E2|]. split; reflexivity. }
  rewrite bool_decide_eq_false_2 by exact E2.
  destruct (decide (name = n_hostname)) as [E3|E3].
  { rewrite bool_decide_eq_true_2 by exact E3. cbv zeta.
    match goal with |- context [?a <=? length buf] =>
      replace (a <=? length buf) with true by (symmetry; apply Nat.leb_le; cbn; lia) end.
    eexists _, _. split; [reflexivity|]. split; [rewrite app_length, drop_length; cbn [length app]; lia|].
    right. right. left. split; [exact E3|]. split; reflexivity. }
  rewrite bool_decide_eq_false_2 by exact E3.
  destruct (decide (name = n_memlimit)) as [E4|E4].
  { rewrite bool_decide_eq_true_2 by exact E4. cbv zeta.
    match goal with |- context [?a <=? length buf] =>
      replace (a <=? length buf) with true by (symmetry; apply Nat.leb_le; cbn; lia) end.
    eexists _, _. split; [reflexivity|]. split; [rewrite app_length, drop_length; cbn [length app]; lia|].
    right. right. right. left. split; [exact E4|]. split; [reflexivity|].
    match goal with |- context [c_string ?x] =>
      change (c_string x) with [53; 52; 57; 55; 53; 53; 56; 49; 51; 56; 56; 56]%N end.
    split; [split; [discriminate|]|reflexivity].
    repeat (constructor; [split; discriminate|]). constructor. }
  rewrite bool_decide_eq_false_2 by exact E4.
  eexists _, _. split; [reflexivity|]. split; [reflexivity|].
  right. right. right. right. split; [|split; reflexivity].
  intros X. repeat (apply elem_of_cons in X as [X|X]; [contradiction|]). inversion X.
Qed.
Print Assumptions C79_parameters_partial.

(** A buffer that is too small stops the program instead of giving an error. *)
Theorem C79_parameters_refuted :
  ¬ (∀ cmdline name buf, getparam cmdline name buf ≠ None).
Proof. intros F. apply (F [] n_hostname [0; 0; 0]%N). reflexivity. Qed.
Print Assumptions C79_parameters_refuted.

(** ** Concrete cases *)

Example C79_hyps_met :
  getrandom (λ k, Some (N.of_nat k * 300 + 5)%N) [0; 0; 0]%N = (0%Z, 3, [5; 49; 93]%N) ∧
  clock_gettime 1700000000 2500000000 0 = Some (1700000002%Z, 500000000%N) ∧
  clock_gettime 1700000000 2500000000 1 = Some (2%Z, 500000000%N) ∧
  getparam [43; 48; 50; 56]%N n_ncpu (replicate 21 255%N) =
    Some (0%Z, [50; 56; 0]%N ++ replicate 18 255%N) ∧
  decimal [48; 50; 56]%N ∧ number [48; 50; 56]%N = 28%N.
Proof.
  split; [reflexivity|]. split; [reflexivity|]. split; [reflexivity|]. split; [reflexivity|].
  split; [|reflexivity]. split; [discriminate|].
  repeat (constructor; [split; discriminate|]). constructor.
Qed.
