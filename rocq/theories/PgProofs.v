(** Proofs for C38. *)
From Verif Require Import Base PgModel PgSpec.
From stdpp Require Import functions.
Local Open Scope N_scope.

(** ** Rounding *)
Lemma ru_spec n s r : 0 < s -> pg_round_up n s = Ok r ->
  n <= r /\ r < n + s /\ r mod s = 0 /\ r < 2 ^ 64 /\ (forall b, n <= b -> b mod s = 0 -> r <= b).
Proof.
  intros Hs. unfold pg_round_up. case_decide as H; [|done]. intros [= <-].
  pose proof (N.div_mod (n + s - 1) s ltac:(lia)) as D. pose proof (N.mod_lt (n + s - 1) s ltac:(lia)) as L.
  set (q := (n + s - 1) / s) in *. set (m := (n + s - 1) mod s) in *. rewrite (N.mul_comm s q) in D. set (t := q * s) in *.
  split; [lia|]. split; [lia|]. split; [apply N.mod_mul; lia|]. split; [lia|]. subst t.
  intros b Hb Hm. pose proof (N.div_mod b s ltac:(lia)) as Db. rewrite Hm in Db. set (qb := b / s) in *.
  destruct (decide (q <= qb)) as [|Hq]; [nia|]. exfalso. assert (qb + 1 <= q) by lia. nia.
Qed.
Lemma ru_id n s : 0 < s -> n mod s = 0 -> n + s < 2 ^ 64 -> pg_round_up n s = Ok n.
Proof.
  intros Hs Hm Hn. unfold pg_round_up. rewrite decide_True by done. f_equal.
  pose proof (N.div_mod n s ltac:(lia)) as Db. rewrite Hm in Db. set (q := n / s) in *.
  replace (n + s - 1) with (s - 1 + q * s) by lia. rewrite N.div_add, N.div_small by lia. lia.
Qed.
Lemma mod_mul_trans a b n : 0 < a -> 0 < b -> b mod a = 0 -> n mod b = 0 -> n mod a = 0.
Proof.
  intros Ha Hb H1 H2. pose proof (N.div_mod b a ltac:(lia)) as D1. pose proof (N.div_mod n b ltac:(lia)) as D2.
  rewrite H1 in D1. rewrite H2 in D2. replace n with ((n / b * (b / a)) * a) by nia. apply N.mod_mul. lia.
Qed.

(** ** One request of a pager *)
Lemma allocate_cases st i size align kok r st' :
  pg_allocate st i size align kok = (r, st') ->
  (r = Panic /\ st' = st) \/
  ((i < PG_CORES)%nat /\ exists sb sz, pg_round_up size PG_BASE = Ok sz /\ pg_round_up (pg_sbrk st i) (N.max align PG_BASE) = Ok sb /\
    ((is_panic r = false /\ is_ok r = false /\ st' = mkPgs (<[i := sb]> (pg_sbrk st)) (pg_log st) /\ (pg_limit i <= sb \/ kok = false)) \/
     (r = Ok sb /\ kok = true /\ sb < pg_limit i /\ sb + sz < 2 ^ 64 /\
      st' = mkPgs (<[i := sb + sz]> (pg_sbrk st)) ((i, (sb, sz)) :: pg_log st)))).
Proof.
  unfold pg_allocate. case_decide as Hi; [|intros [= <- <-]; auto].
  destruct (pg_round_up size PG_BASE) as [sz| |] eqn:E1; [|intros [= <- <-]; auto..].
  destruct (pg_round_up (pg_sbrk st i) _) as [sb| |] eqn:E2; [|intros [= <- <-]; auto..].
  case_decide as Hl; [intros [= <- <-]; right; split; [done|]; exists sb, sz; split_and!; auto; left; auto|].
  destruct kok; [|intros [= <- <-]; right; split; [done|]; exists sb, sz; split_and!; auto; left; auto].
  case_decide as Ho; intros [= <- <-]; [|auto]. right. split; [done|]. exists sb, sz. split_and!; auto. right.
  split_and!; auto. lia.
Qed.

(** ** Properties kept by every request with an admissible layout are kept by every history *)
Definition op_layouts (Q : N -> N -> Prop) (o : pgop) : Prop :=
  match o with
  | PReq _ size align _ => Q size align
  | PPage _ _ _ | PBig _ _ _ => True
  | PMmap _ _ _ => forall s, s <= PG_CHUNK -> Q s PG_LARGE
  end.
Section Inv.
  Context (P : pgs -> Prop) (Q : N -> N -> Prop).
  Hypothesis HQ : forall large, Q (pg_page_size large) (pg_page_size large).
  Hypothesis HP : forall st i size align kok r st', Q size align -> P st -> pg_allocate st i size align kok = (r, st') -> P st'.
  Lemma inv_try_loop fuel chk st me c large ks r st' :
    P st -> pg_try_loop fuel chk st me c large ks = (r, st') -> P st'.
  Proof using All.
    revert st c. induction fuel as [|fuel IH]; intros st c H; cbn [pg_try_loop]; [by intros [= <- <-]|].
    destruct (pg_alloc_page st c large (ks c)) as [r1 st1] eqn:E.
    assert (P st1) by (eapply HP; [apply HQ|done|exact E]).
    destruct r1; [by intros [= <- <-]| |by intros [= <- <-]]. cbv zeta. destruct (pg_stop chk me); try (by intros [= <- <-]).
    case_decide; [by intros [= <- <-]|]. by apply IH.
  Qed.
  Lemma inv_big_loop n chk st me first kss r st' :
    P st -> pg_big_loop n chk st me first kss = (r, st') -> P st'.
  Proof using All.
    revert st first. induction n as [|n IH]; intros st first H; cbn [pg_big_loop]; [by intros [= <- <-]|].
    destruct (pg_try chk st me true (kss n)) as [r1 st1] eqn:E. assert (P st1) by (by eapply inv_try_loop).
    destruct r1 as [[p|]| |]; try (by intros [= <- <-]). by apply IH.
  Qed.
  Lemma inv_mmap_loop n st me rem ptr ks r st' : (forall s, s <= PG_CHUNK -> Q s PG_LARGE) ->
    P st -> pg_mmap_loop n st me rem ptr ks = (r, st') -> P st'.
  Proof using All.
    intros HM. revert st rem ptr. induction n as [|n IH]; intros st rem ptr H; cbn [pg_mmap_loop].
    - destruct ptr; [case_decide|]; by intros [= <- <-].
    - destruct (pg_allocate _ _ _ _ _) as [r1 st1] eqn:E. assert (P st1) by (eapply HP; [|done|exact E]; apply HM; lia).
      destruct r1; [|by intros [= <- <-]..]. by apply IH.
  Qed.
  Lemma inv_step chk st o : op_layouts Q o -> P st -> P (pg_step chk st o).2.
  Proof using All.
    destruct o as [i size align k|me lg ks|me size kss|me len ks]; cbn [pg_step op_layouts]; intros HO H.
    - destruct (pg_allocate _ _ _ _ _) eqn:E. simpl. by eapply HP.
    - destruct (pg_try _ _ _ _ _) eqn:E. simpl. by eapply inv_try_loop.
    - destruct (pg_big _ _ _ _ _) eqn:E. simpl. by eapply inv_big_loop.
    - destruct (pg_mmap _ _ _ _) eqn:E. simpl. unfold pg_mmap in E. case_decide; [|by injection E as <- <-]. by eapply inv_mmap_loop.
  Qed.
  Lemma inv_run chk st l : Forall (op_layouts Q) l -> P st -> P (pg_run chk st l).2.
  Proof using All.
    revert st. induction l as [|o l IH]; intros st HO H; cbn [pg_run]; [done|]. inversion_clear HO as [|? ? H1 H2].
    pose proof (inv_step chk st o H1 H). destruct (pg_step chk st o) as [[] st']; simpl in *; auto.
  Qed.
End Inv.

(** ** The invariant of the ranges *)
Record pinv (st : pgs) : Prop := {
  p_start : forall i, pg_start i <= pg_sbrk st i;
  p_log : forall i b s, (i, (b, s)) ∈ pg_log st ->
    (i < PG_CORES)%nat /\ pg_start i <= b /\ b < pg_limit i /\ b + s <= pg_sbrk st i;
  p_apart : forall m n i r1 r2, pg_log st !! m = Some (i, r1) -> pg_log st !! n = Some (i, r2) -> m <> n -> apart r1 r2
}.
Lemma pinv_init : pinv pgs_init.
Proof. split; [intros; simpl; lia|intros i b s H; by apply elem_of_nil in H|intros m n i r1 r2 H; done]. Qed.
Lemma pinv_alloc st i size align kok r st' : pinv st -> pg_allocate st i size align kok = (r, st') -> pinv st'.
Proof.
  intros I E. destruct (allocate_cases _ _ _ _ _ _ _ E) as [[_ ->]|(Hi & sb & sz & E1 & E2 & C)]; [done|].
  assert (0 < N.max align PG_BASE) by (unfold PG_BASE; lia).
  pose proof (ru_spec _ _ _ ltac:(done) E2) as (R1 & R2 & R3 & R4 & R5). pose proof (p_start _ I i) as S0.
  destruct C as [(_ & _ & -> & _)|(-> & _ & Hl & Ho & ->)]; split; cbn [pg_sbrk pg_log].
  - intros j. destruct (decide (j = i)) as [->|]; [rewrite fn_lookup_insert; lia|rewrite fn_lookup_insert_ne by done; apply I].
  - intros j b s H1. destruct (p_log _ I _ _ _ H1) as (? & ? & ? & ?). split_and!; auto.
    destruct (decide (j = i)) as [->|]; [rewrite fn_lookup_insert; lia|by rewrite fn_lookup_insert_ne].
  - apply I.
  - intros j. destruct (decide (j = i)) as [->|]; [rewrite fn_lookup_insert; lia|rewrite fn_lookup_insert_ne by done; apply I].
  - intros j b s [[= -> -> ->]|H1]%elem_of_cons; [rewrite fn_lookup_insert; split_and!; auto; lia|].
    destruct (p_log _ I _ _ _ H1) as (? & ? & ? & ?). split_and!; auto.
    destruct (decide (j = i)) as [->|]; [rewrite fn_lookup_insert; lia|by rewrite fn_lookup_insert_ne].
  - intros [|m] [|n] j r1 r2; cbn [lookup list_lookup]; intros H1 H2 Hn; [done| | |].
    + injection H1 as <- <-. apply elem_of_list_lookup_2 in H2. destruct r2 as [b2 s2]. apply (p_log _ I) in H2 as (_ & _ & _ & H2).
      intros a [A1 A2]. simpl in *. lia.
    + injection H2 as <- <-. apply elem_of_list_lookup_2 in H1. destruct r1 as [b2 s2]. apply (p_log _ I) in H1 as (_ & _ & _ & H1).
      intros a [A1 A2]. simpl in *. lia.
    + eapply (p_apart _ I m n); eauto.
Qed.
Lemma pinv_run chk l : pinv (pg_run chk pgs_init l).2.
Proof.
  apply (inv_run pinv (fun _ _ => True)); [done| |by apply Forall_forall; intros [] |apply pinv_init].
  intros. by eapply pinv_alloc.
Qed.

(** ** Pages only *)
Definition page_layout (size align : N) : Prop := exists large, size = pg_page_size large /\ align = pg_page_size large.
Record pinv2 (st : pgs) : Prop := {
  q_sbrk : forall i, pg_sbrk st i <= pg_limit i;
  q_log : forall i b s, (i, (b, s)) ∈ pg_log st -> b + s <= pg_limit i
}.
Lemma pinv2_init : pinv2 pgs_init.
Proof.
  split; [|intros i b s H; by apply elem_of_nil in H]. intros i. simpl. unfold pg_start, pg_limit, HEAP_REGION. lia.
Qed.
Lemma page_size_pos large : 0 < pg_page_size large.
Proof. by destruct large. Qed.
Lemma page_size_max large : N.max (pg_page_size large) PG_BASE = pg_page_size large.
Proof. by destruct large. Qed.
Lemma page_ru large : pg_round_up (pg_page_size large) PG_BASE = Ok (pg_page_size large).
Proof. by destruct large. Qed.
Lemma limit_mod i large : pg_limit i mod pg_page_size large = 0.
Proof.
  unfold pg_limit, HEAP_START, HEAP_REGION.
  assert (X : 2 ^ 39 mod pg_page_size large = 0) by (by destruct large). pose proof (page_size_pos large).
  apply (mod_mul_trans _ (2 ^ 39)); [done|lia|done|]. replace (2 ^ 39 + N.of_nat (S i) * 2 ^ 39) with ((1 + N.of_nat (S i)) * 2 ^ 39) by lia.
  by apply N.mod_mul.
Qed.
Lemma fits large b i : b mod pg_page_size large = 0 -> b < pg_limit i -> b + pg_page_size large <= pg_limit i.
Proof.
  intros H1 H2. pose proof (limit_mod i large) as H3. pose proof (page_size_pos large). set (p := pg_page_size large) in *.
  pose proof (N.div_mod b p ltac:(lia)) as D1. pose proof (N.div_mod (pg_limit i) p ltac:(lia)) as D2. rewrite H1 in D1. rewrite H3 in D2.
  set (q1 := b / p) in *. set (q2 := pg_limit i / p) in *. assert (q1 < q2) by nia. nia.
Qed.
Lemma pinv2_alloc st i size align kok r st' :
  page_layout size align -> pinv2 st -> pg_allocate st i size align kok = (r, st') -> pinv2 st'.
Proof.
  intros (large & -> & ->) I E. destruct (allocate_cases _ _ _ _ _ _ _ E) as [[_ ->]|(Hi & sb & sz & E1 & E2 & C)]; [done|].
  rewrite page_size_max in E2. rewrite page_ru in E1. injection E1 as <-.
  pose proof (page_size_pos large) as Hp. pose proof (ru_spec _ _ _ Hp E2) as (R1 & R2 & R3 & R4 & R5). pose proof (q_sbrk _ I i) as S0.
  assert (SB : sb <= pg_limit i) by (apply R5; [done|apply limit_mod]).
  destruct C as [(_ & _ & -> & _)|(-> & _ & Hl & Ho & ->)]; split; cbn [pg_sbrk pg_log].
  - intros j. destruct (decide (j = i)) as [->|]; [rewrite fn_lookup_insert; lia|rewrite fn_lookup_insert_ne by done; apply I].
  - apply I.
  - intros j. destruct (decide (j = i)) as [->|]; [rewrite fn_lookup_insert; by apply fits|rewrite fn_lookup_insert_ne by done; apply I].
  - intros j b s [[= -> -> ->]|H1]%elem_of_cons; [by apply fits|by apply (q_log _ I)].
Qed.
Lemma pinv2_run chk l : Forall (op_layouts page_layout) l -> pinv2 (pg_run chk pgs_init l).2.
Proof.
  intros H. apply (inv_run pinv2 page_layout); [by eexists| |done|apply pinv2_init]. intros. by eapply pinv2_alloc.
Qed.

Lemma limit_bound i : (i < PG_CORES)%nat -> pg_limit i <= 97 * 2 ^ 39.
Proof. unfold pg_limit, PG_CORES, HEAP_START, HEAP_REGION. intros. lia. Qed.

(** ** The search over the pagers *)
Definition exhausted (st : pgs) (k : nat) (large : bool) : Prop :=
  forall b, pg_sbrk st k <= b -> b mod pg_page_size large = 0 -> pg_limit k <= b.
Lemma page_err st c large kok e st' : pg_alloc_page st c large kok = (Err e, st') ->
  (exhausted st c large \/ kok = false) /\ pg_log st' = pg_log st /\ forall j, j <> c -> pg_sbrk st' j = pg_sbrk st j.
Proof.
  intros E. destruct (allocate_cases _ _ _ _ _ _ _ E) as [[? _]|(Hi & sb & sz & E1 & E2 & C)]; [done|].
  rewrite page_size_max in E2. destruct C as [(_ & _ & -> & H)|(? & _)]; [|done]. cbn [pg_sbrk pg_log]. split; [|split; [done|]].
  - destruct H as [H|]; [left|by right]. intros b Hb Hm. pose proof (ru_spec _ _ _ (page_size_pos large) E2) as (_ & _ & _ & _ & R).
    specialize (R b Hb Hm). lia.
  - intros j Hj. by rewrite fn_lookup_insert_ne.
Qed.
Lemma mod_inj me m j : (m < PG_CORES)%nat -> (j < PG_CORES)%nat -> ((me + m) mod PG_CORES = (me + j) mod PG_CORES)%nat -> m = j.
Proof.
  intros Hm Hj Heq. pose proof (Nat.div_mod (me + m) PG_CORES ltac:(done)) as H. pose proof (Nat.div_mod (me + j) PG_CORES ltac:(done)) as H'.
  rewrite Heq in H. set (a := ((me + m) / PG_CORES)%nat) in *. set (b := ((me + j) / PG_CORES)%nat) in *. unfold PG_CORES in *.
  assert (a = b \/ (a < b)%nat \/ (b < a)%nat) as [->|[|]] by lia; lia.
Qed.
Lemma mod_succ me j : (S ((me + j) mod PG_CORES) mod PG_CORES = (me + S j) mod PG_CORES)%nat.
Proof.
  replace (S ((me + j) mod PG_CORES)) with ((me + j) mod PG_CORES + 1)%nat by lia. rewrite Nat.add_mod_idemp_l by done. f_equal. lia.
Qed.
(** The search tries the pagers me, me+1, ..., up to the one before the stop, which is [D] away. *)
Lemma try_loop_none chk me large ks st D : (0 < D < PG_CORES)%nat -> pg_stop chk me = Ok ((me + D) mod PG_CORES)%nat ->
  forall fuel j st1 st', (j < D)%nat ->
  (forall m, (j <= m < D)%nat -> pg_sbrk st1 ((me + m) mod PG_CORES)%nat = pg_sbrk st ((me + m) mod PG_CORES)%nat) ->
  pg_try_loop fuel chk st1 me ((me + j) mod PG_CORES)%nat large ks = (Ok None, st') ->
  pg_log st' = pg_log st1 /\
  forall m, (j <= m < D)%nat -> exhausted st ((me + m) mod PG_CORES)%nat large \/ ks ((me + m) mod PG_CORES)%nat = false.
Proof.
  intros HD ES. induction fuel as [|fuel IH]; intros j st1 st' Hj Same; cbn [pg_try_loop]; [done|].
  destruct (pg_alloc_page st1 _ large _) as [r1 st2] eqn:E. destruct r1 as [p|e|]; [done| |done]. cbv zeta. rewrite ES.
  destruct (page_err _ _ _ _ _ _ E) as (X & L & O).
  assert (X' : exhausted st ((me + j) mod PG_CORES)%nat large \/ ks ((me + j) mod PG_CORES)%nat = false).
  { destruct X as [X|]; [left|by right]. unfold exhausted in *. rewrite <- Same by lia. done. }
  rewrite mod_succ. case_decide as HS.
  - intros [= <-]. split; [done|]. apply mod_inj in HS; [|lia..]. intros m Hm. by assert (m = j) as -> by lia.
  - intros E'. assert (S j < D)%nat as HJ by (destruct (decide (S j = D)) as [<-|]; [done|lia]).
    destruct (IH (S j) st2 st' HJ) as [L' HJ3]; [|done|].
    + intros m Hm. rewrite O; [apply Same; lia|]. intros Heq. apply mod_inj in Heq; lia.
    + split; [congruence|]. intros m Hm. destruct (decide (m = j)) as [->|]; [done|]. apply HJ3. lia.
Qed.
(** With pages only, a request does not panic. *)
Lemma page_no_panic st i large kok : (i < PG_CORES)%nat -> pinv2 st -> is_panic (pg_alloc_page st i large kok).1 = false.
Proof.
  intros Hi I. unfold pg_alloc_page, pg_allocate. rewrite decide_True by done. rewrite page_ru, page_size_max.
  pose proof (q_sbrk _ I i). pose proof (limit_bound i Hi). assert (pg_page_size large <= 2097152) by (destruct large; unfold pg_page_size, PG_LARGE, PG_BASE; lia).
  destruct (pg_round_up (pg_sbrk st i) (pg_page_size large)) as [sb|e|] eqn:E; [|unfold pg_round_up in E; case_decide; done|].
  - case_decide; [done|]. destruct kok; [|done]. rewrite decide_True; [done|]. lia.
  - exfalso. unfold pg_round_up in E. case_decide as X; [done|]. apply X. lia.
Qed.
Lemma try_loop_no_panic chk me large ks D : (0 < D < PG_CORES)%nat -> pg_stop chk me = Ok ((me + D) mod PG_CORES)%nat ->
  forall fuel j st, (j < D)%nat -> (D - j <= fuel)%nat -> pinv2 st ->
  is_panic (pg_try_loop fuel chk st me ((me + j) mod PG_CORES)%nat large ks).1 = false.
Proof.
  intros HD ES. induction fuel as [|fuel IH]; intros j st Hj Hf B; [lia|]. cbn [pg_try_loop].
  set (c := ((me + j) mod PG_CORES)%nat). assert (Hc : (c < PG_CORES)%nat) by (by apply Nat.mod_upper_bound).
  pose proof (page_no_panic st c large (ks c) Hc B) as NP.
  destruct (pg_alloc_page st c large (ks c)) as [r1 st2] eqn:E.
  assert (I2 : pinv2 st2) by (eapply pinv2_alloc; [by exists large|done|exact E]).
  destruct r1 as [p|e|]; [done| |done]. cbv zeta. rewrite ES. unfold c. rewrite mod_succ. case_decide as HS; [done|].
  assert (S j <> D) by congruence. apply IH; [lia|lia|done].
Qed.
Lemma stop_dist chk me stop : (me < PG_CORES)%nat -> pg_stop chk me = Ok stop ->
  exists D, (0 < D < PG_CORES)%nat /\ stop = ((me + D) mod PG_CORES)%nat /\ (me = O -> D = 63%nat) /\ (me <> O -> D = 95%nat).
Proof.
  intros Hm. destruct me as [|k]; cbn [pg_stop].
  - destruct chk; [done|]. intros [= <-]. exists 63%nat. split; [unfold PG_CORES; lia|]. split; [by vm_compute|]. split; [done|lia].
  - intros [= <-]. exists 95%nat. split; [unfold PG_CORES; lia|]. split; [|split; [lia|done]].
    replace (S k + 95)%nat with (k + 1 * PG_CORES)%nat by (unfold PG_CORES; lia). rewrite Nat.mod_add by done. symmetry. apply Nat.mod_small. lia.
Qed.

(** ** mmap *)
Lemma mmap_loop_spec n : forall st me rem p ks q st',
  (0 < rem -> pg_sbrk st me mod PG_LARGE = 0) -> N.of_nat n = (rem + PG_CHUNK - 1) / PG_CHUNK ->
  pg_mmap_loop n st me rem (Some p) ks = (Ok q, st') ->
  q = p /\ exists new, pg_log st' = ((me,.) <$> new) ++ pg_log st /\
    forall a, pg_sbrk st me <= a < pg_sbrk st me + rem -> covered new a.
Proof.
  induction n as [|n IH]; intros st me rem p ks q st' HS Hn; cbn [pg_mmap_loop].
  - case_decide as H0; [|done]. intros [= <- <-]. split; [done|]. exists []. split; [done|]. intros a Ha. lia.
  - assert (Hr : 0 < rem).
    { destruct (decide (rem = 0)) as [->|]; [|lia]. change ((0 + PG_CHUNK - 1) / PG_CHUNK) with 0 in Hn. lia. }
    destruct (pg_allocate _ _ _ _ _) as [r1 st1] eqn:E. destruct r1 as [va|e|]; [|done..].
    destruct (allocate_cases _ _ _ _ _ _ _ E) as [[? _]|(Hi & sb & sz & E1 & E2 & C)]; [done|].
    destruct C as [(_ & ? & _)|([= <-] & _ & Hl & Ho & ->)]; [done|]. change (N.max PG_LARGE PG_BASE) with PG_LARGE in E2.
    pose proof (ru_spec _ PG_LARGE _ ltac:(done) E2) as (R1 & R2 & R3 & R4 & R5). specialize (R5 _ (N.le_refl _) (HS Hr)).
    assert (va = pg_sbrk st me) as -> by lia. clear R1 R2 R5.
    pose proof (ru_spec _ PG_BASE _ ltac:(done) E1) as (S1 & S2 & S3 & _ & S5).
    intros E'. destruct (decide (rem <= PG_CHUNK)) as [Hc|Hc].
    + assert (n = O) as ->.
      { assert (X : (rem + PG_CHUNK - 1) / PG_CHUNK < 2) by (apply N.div_lt_upper_bound; [done|unfold PG_CHUNK in *; lia]). lia. }
      cbn [pg_mmap_loop] in E'. case_decide as H0; [|done]. injection E' as <- <-. split; [done|]. exists [(pg_sbrk st me, sz)].
      split; [done|]. intros a Ha. exists (pg_sbrk st me, sz). split; [left|]. simpl. lia.
    + rewrite N.min_l in * by lia.
      assert (sz = PG_CHUNK) as ->. { vm_compute in E1. by injection E1 as <-. }
      apply IH in E'.
      * destruct E' as (-> & new & L & C). split; [done|]. exists (new ++ [(pg_sbrk st me, PG_CHUNK)]). cbn [pg_log pg_sbrk] in *. split.
        -- rewrite L, fmap_app, <- app_assoc. done.
        -- intros a Ha. destruct (decide (a < pg_sbrk st me + PG_CHUNK)).
           ++ exists (pg_sbrk st me, PG_CHUNK). split; [set_solver|]. simpl. lia.
           ++ destruct (C a) as (r & Hr1 & Hr2); [rewrite fn_lookup_insert; lia|]. exists r. split; [set_solver|done].
      * cbn [pg_sbrk]. intros _. rewrite fn_lookup_insert. rewrite N.add_mod, R3 by done. done.
      * assert (X : rem + PG_CHUNK - 1 = (rem - PG_CHUNK + PG_CHUNK - 1) + 1 * PG_CHUNK) by (unfold PG_CHUNK in *; lia).
        rewrite X, N.div_add in Hn by done. lia.
Qed.

(** ** Big allocations on one pager *)
Lemma try_own chk st me large ks sb : (me < PG_CORES)%nat -> ks me = true ->
  pg_round_up (pg_sbrk st me) (pg_page_size large) = Ok sb -> sb < pg_limit me ->
  pg_try chk st me large ks = (Ok (Some sb), mkPgs (<[me := sb + pg_page_size large]> (pg_sbrk st)) ((me, (sb, pg_page_size large)) :: pg_log st)).
Proof.
  intros Hm Hk E Hl. unfold pg_try. change PG_CORES with (S 95). cbn [pg_try_loop]. unfold pg_alloc_page, pg_allocate.
  rewrite decide_True by done. rewrite page_ru, page_size_max, E, Hk. rewrite decide_False by lia.
  pose proof (fits large sb me). pose proof (limit_bound me Hm). rewrite decide_True; [done|].
  pose proof (ru_spec _ _ _ (page_size_pos large) E) as (_ & _ & R & _). specialize (H R Hl). lia.
Qed.
Lemma big_loop_spec n : forall chk st me p kss,
  (me < PG_CORES)%nat -> (forall k, kss k me = true) -> pg_sbrk st me mod PG_LARGE = 0 ->
  pg_sbrk st me + N.of_nat n * PG_LARGE <= pg_limit me ->
  exists st' new, pg_big_loop n chk st me (Some p) kss = (Ok (Some p), st') /\ pg_log st' = ((me,.) <$> new) ++ pg_log st /\
    forall a, pg_sbrk st me <= a < pg_sbrk st me + N.of_nat n * PG_LARGE -> covered new a.
Proof.
  induction n as [|n IH]; intros chk st me p kss Hm Hk HM HL.
  - exists st, []. split; [done|]. split; [done|]. intros a Ha. lia.
  - cbn [pg_big_loop]. pose proof (limit_bound me Hm) as LB. rewrite (try_own _ _ _ _ _ (pg_sbrk st me) Hm (Hk n)).
    + edestruct (IH chk (mkPgs (<[me := pg_sbrk st me + PG_LARGE]> (pg_sbrk st)) ((me, (pg_sbrk st me, PG_LARGE)) :: pg_log st)) me p kss)
        as (st' & new & E & L & C); [done|done| | |].
      * cbn [pg_sbrk]. rewrite fn_lookup_insert. rewrite N.add_mod, HM by done. done.
      * cbn [pg_sbrk]. rewrite fn_lookup_insert. lia.
      * exists st', (new ++ [(pg_sbrk st me, PG_LARGE)]). split; [done|]. cbn [pg_log pg_sbrk] in *. rewrite fn_lookup_insert in C. split.
        -- rewrite L, fmap_app, <- app_assoc. done.
        -- intros a Ha. destruct (decide (a < pg_sbrk st me + PG_LARGE)).
           ++ exists (pg_sbrk st me, PG_LARGE). split; [set_solver|]. simpl. lia.
           ++ destruct (C a) as (r & Hr1 & Hr2); [lia|]. exists r. split; [set_solver|done].
    + apply ru_id; [done|done|]. simpl. unfold PG_LARGE in *. lia.
    + unfold PG_LARGE in *. lia.
Qed.
