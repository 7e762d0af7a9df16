(** The rings of the transmit queue follow the specification. *)
From Verif Require Import Base NtxModel NtxSpec.
Local Arguments Nat.modulo : simpl never.
Local Arguments Nat.div : simpl never.

(** ** Positions: unbounded counters for ring indices and generations *)

Definition gen (n i : nat) : bool := Nat.even (i / n).

Lemma gen_0 n : 0 < n -> gen n 0 = true.
Proof. intros. unfold gen. by rewrite Nat.div_0_l by lia. Qed.

Lemma gen_lap n i : 0 < n -> gen n (i + n) = negb (gen n i).
Proof.
  intros H. unfold gen. replace (i + n) with (i + 1 * n) by lia. rewrite Nat.div_add by lia.
  rewrite Nat.add_1_r, Nat.even_succ. by rewrite <- Nat.negb_even.
Qed.

Lemma mod_S n i : 0 < n -> S i mod n = if S (i mod n) =? n then 0 else S (i mod n).
Proof.
  intros H. pose proof (Nat.div_mod i n ltac:(lia)) as E. pose proof (Nat.mod_upper_bound i n ltac:(lia)) as B.
  destruct (Nat.eqb_spec (S (i mod n)) n) as [W|W].
  - replace (S i) with (0 + S (i / n) * n) by (rewrite Nat.mul_succ_l; lia). rewrite Nat.mod_add by lia. by apply Nat.mod_small.
  - replace (S i) with (S (i mod n) + (i / n) * n) by lia. rewrite Nat.mod_add by lia. apply Nat.mod_small. lia.
Qed.
Lemma gen_S n i : 0 < n -> gen n (S i) = if S (i mod n) =? n then negb (gen n i) else gen n i.
Proof.
  intros H. pose proof (Nat.div_mod i n ltac:(lia)) as E. pose proof (Nat.mod_upper_bound i n ltac:(lia)) as B.
  unfold gen. destruct (Nat.eqb_spec (S (i mod n)) n) as [W|W].
  - replace (S i) with (0 + S (i / n) * n) by (rewrite Nat.mul_succ_l; lia). rewrite Nat.div_add by lia.
    rewrite Nat.div_0_l by lia. rewrite Nat.add_0_l, Nat.even_succ. by rewrite <- Nat.negb_even.
  - replace (S i) with (S (i mod n) + (i / n) * n) by lia. rewrite Nat.div_add by lia.
    rewrite (Nat.div_small (S (i mod n))) by lia. done.
Qed.

Lemma mod_window n b i j : 0 < n -> b <= i < b + n -> b <= j < b + n -> i mod n = j mod n -> i = j.
Proof.
  intros H Hi Hj E. pose proof (Nat.div_mod i n ltac:(lia)) as Ei. pose proof (Nat.div_mod j n ltac:(lia)) as Ej.
  rewrite E in Ei. set (m := j mod n) in *. set (qi := i / n) in *. set (qj := j / n) in *. clearbody m qi qj. clear E.
  assert (qi = qj); [|by subst].
  destruct (Nat.lt_trichotomy qi qj) as [L|[L|L]]; [exfalso|done|exfalso].
  - assert (n * S qi <= n * qj) by (apply Nat.mul_le_mono_l; lia). rewrite Nat.mul_succ_r in *. lia.
  - assert (n * S qj <= n * qi) by (apply Nat.mul_le_mono_l; lia). rewrite Nat.mul_succ_r in *. lia.
Qed.

Lemma mod_lap n i : 0 < n -> (i + n) mod n = i mod n.
Proof. intros. replace (i + n) with (i + 1 * n) by lia. apply Nat.mod_add. lia. Qed.

(** [count] is the distance. *)
Lemma land_mask x k : N.land x (N.of_nat (2 ^ k - 1)) = (x mod 2 ^ N.of_nat k)%N.
Proof.
  rewrite <- N.land_ones. f_equal. rewrite N.ones_equiv. apply N2Nat.inj.
  rewrite Nat2N.id, N2Nat.inj_pred, N2Nat.inj_pow, Nat2N.id. change (N.to_nat 2) with 2. clear. generalize (2 ^ k). intros. lia.
Qed.

Lemma wrap_mod a b k : a < 2 ^ k -> b < 2 ^ k -> k <= 63 ->
  (wrapping_sub a b mod 2 ^ N.of_nat k = (N.of_nat a + 2 ^ N.of_nat k - N.of_nat b) mod 2 ^ N.of_nat k)%N.
Proof.
  intros Ha Hb Hk. unfold wrapping_sub. set (m := (2 ^ N.of_nat k)%N).
  assert (Hm : (m <> 0)%N) by (apply N.pow_nonzero; done).
  assert (E : (2 ^ 64 = 2 ^ (64 - N.of_nat k) * m)%N).
  { unfold m. rewrite <- N.pow_add_r. f_equal. lia. }
  assert (Hnm : N.of_nat (2 ^ k) = m).
  { unfold m. rewrite Nat2N.inj_pow. done. }
  assert (La : (N.of_nat a < m)%N) by lia. assert (Lb : (N.of_nat b < m)%N) by lia.
  set (c := (2 ^ (64 - N.of_nat k))%N) in *.
  assert (Hc : (1 <= c)%N). { assert (c <> 0)%N by (apply N.pow_nonzero; done). lia. }
  rewrite E. clearbody c m. clear -Hm La Lb Hc.
  assert (X : ((N.of_nat a + c * m - N.of_nat b) mod (c * m) mod m = (N.of_nat a + c * m - N.of_nat b) mod m)%N).
  { generalize (N.of_nat a + c * m - N.of_nat b)%N. intros x. rewrite (N.mul_comm c m). rewrite N.mod_mul_r by lia.
    rewrite (N.mul_comm m (_ mod _)). rewrite N.mod_add by lia. by apply N.mod_mod. }
  rewrite X. replace (N.of_nat a + c * m - N.of_nat b)%N with (N.of_nat a + m - N.of_nat b + (c - 1) * m)%N.
  - by apply N.mod_add.
  - rewrite N.mul_sub_distr_r. assert (m <= c * m)%N by nia. lia.
Qed.

Lemma count_dist k T H : k <= 63 -> T <= H < T + 2 ^ k -> count (T mod 2 ^ k) (H mod 2 ^ k) (2 ^ k) = H - T.
Proof.
  intros Hk HT. assert (P : 0 < 2 ^ k) by (pose proof (Nat.pow_nonzero 2 k); lia).
  unfold count. rewrite land_mask. rewrite wrap_mod by (try apply Nat.mod_upper_bound; lia).
  set (n := 2 ^ k) in *.
  assert (Hnm : (2 ^ N.of_nat k)%N = N.of_nat n) by (unfold n; rewrite Nat2N.inj_pow; done). rewrite Hnm.
  pose proof (Nat.mod_upper_bound T n ltac:(lia)) as BT. pose proof (Nat.mod_upper_bound H n ltac:(lia)) as BH.
  rewrite <- Nat2N.inj_add, <- Nat2N.inj_sub, <- Nat2N.inj_mod, Nat2N.id.
  pose proof (Nat.div_mod T n ltac:(lia)) as ET. pose proof (Nat.div_mod H n ltac:(lia)) as EH.
  set (t := T mod n) in *. set (h := H mod n) in *. set (qt := T / n) in *. set (qh := H / n) in *.
  clearbody t h qt qh n. clear -P HT BT BH ET EH.
  assert (qh = qt \/ qh = S qt) as [-> | ->] by nia.
  - replace (h + n - t) with (h - t + 1 * n) by lia. rewrite Nat.mod_add by lia. rewrite Nat.mod_small by lia. lia.
  - rewrite Nat.mod_small by nia. nia.
Qed.

Lemma pred_mod k H : k <= 63 -> 0 < H ->
  N.to_nat (wrapping_sub (H mod 2 ^ k) 1 mod N.of_nat (2 ^ k))%N = (H - 1) mod 2 ^ k.
Proof.
  intros Hk HH. assert (P : 0 < 2 ^ k) by (pose proof (Nat.pow_nonzero 2 k); lia).
  assert (Hnm : (2 ^ N.of_nat k)%N = N.of_nat (2 ^ k)) by (rewrite Nat2N.inj_pow; done). rewrite <- Hnm.
  destruct (decide (k = 0)) as [->|Hk0].
  { simpl (2 ^ 0). rewrite !Nat.mod_1_r. simpl (2 ^ N.of_nat 0)%N. by rewrite N.mod_1_r. }
  assert (P2 : 1 < 2 ^ k) by (apply Nat.pow_gt_1; lia).
  rewrite wrap_mod by (try apply Nat.mod_upper_bound; lia). rewrite Hnm.
  set (n := 2 ^ k) in *. pose proof (Nat.mod_upper_bound H n ltac:(lia)) as BH.
  change 1%N with (N.of_nat 1) at 1 || idtac.
  rewrite <- Nat2N.inj_add, <- Nat2N.inj_sub, <- Nat2N.inj_mod, Nat2N.id.
  destruct (H) as [|h] eqn:E0; [lia|]. rewrite mod_S by lia.
  replace (S h - 1) with h by lia. pose proof (Nat.mod_upper_bound h n ltac:(lia)).
  destruct (Nat.eqb_spec (S (h mod n)) n).
  - rewrite Nat.mod_small by lia. lia.
  - replace (S (h mod n) + n - 1) with (h mod n + 1 * n) by lia. rewrite Nat.mod_add by lia. apply Nat.mod_small. lia.
Qed.

(** ** Rings *)

Definition setg (g : bool) (d : txdesc) : txdesc := mkTxd (x_addr d) (x_len d) g (x_eop d) (x_compreq d).

Fixpoint encs (fl : bool) (l : list tseg) : list txdesc :=
  match l with
  | [] => []
  | (a, len) :: r =>
      let last := match r with [] => true | _ => false end in
      mkTxd a (len mod 2 ^ 14)%N false last (last && fl) :: encs fl r
  end.
Definition enc (c : tchain) : list txdesc := encs c.2 c.1.
Definition stream (w : list tchain) : list txdesc := concat (enc <$> w).

Lemma encs_length fl l : length (encs fl l) = length l.
Proof. induction l as [|[a b] l IH]; simpl; [done|]. by rewrite IH. Qed.
Lemma enc_length c : length (enc c) = length c.1.
Proof. apply encs_length. Qed.
Lemma stream_length w : length (stream w) = segments w.
Proof. induction w as [|c w IH]; [done|]. unfold stream in *. cbn. rewrite app_length, enc_length. by rewrite IH. Qed.
Lemma stream_app w w' : stream (w ++ w') = stream w ++ stream w'.
Proof. unfold stream. by rewrite fmap_app, concat_app. Qed.
Lemma segments_app l l' : segments (l ++ l') = segments l + segments l'.
Proof. induction l as [|c l IH]; [done|]. cbn. fold (segments (l ++ l')). rewrite IH. fold (segments l). lia. Qed.

Lemma encs_drop fl l m : drop m (encs fl l) = encs fl (drop m l).
Proof.
  revert m. induction l as [|[a b] l IH]; intros m; [cbn [encs]; by rewrite !drop_nil|].
  destruct m as [|m]; [done|]. cbn [encs drop]. apply IH.
Qed.

Section rings.
Context (n : nat) (Hn : 0 < n).

Definition mark (V i : nat) : bool := if i =? V then negb (gen n i) else gen n i.
Definition ringok (ring : list txdesc) (D V : nat) (St : list txdesc) : Prop :=
  (forall j s, St !! j = Some s -> ring !! ((D + j) mod n) = Some (setg (mark V (D + j)) s)) /\
  (forall j, length St <= j < n -> exists d, ring !! ((D + j) mod n) = Some d /\ x_gen d = negb (gen n (D + j))).

Lemma mod_ne D i j : i < n -> j < n -> i <> j -> (D + i) mod n <> (D + j) mod n.
Proof. intros Hi Hj Hne E. apply (mod_window n D) in E; lia. Qed.

Lemma ring_push ring D V St s : length ring = n -> length St < n -> ringok ring D V St ->
  ringok (<[(D + length St) mod n := setg (mark V (D + length St)) s]> ring) D V (St ++ [s]).
Proof.
  intros HL Hlt [A B]. pose proof (Nat.mod_upper_bound (D + length St) n ltac:(lia)) as Bd. split.
  - intros j s' Hj. apply lookup_app_Some in Hj as [Hj|[Hle Hj]].
    + pose proof (lookup_lt_Some _ _ _ Hj). rewrite list_lookup_insert_ne; [by apply A|]. apply mod_ne; lia.
    + apply list_lookup_singleton_Some in Hj as [Hz <-]. replace j with (length St) by lia.
      rewrite list_lookup_insert; [done|lia].
  - intros j Hj. rewrite app_length in Hj. cbn in Hj. rewrite list_lookup_insert_ne; [apply B; lia|]. apply mod_ne; lia.
Qed.

Lemma ring_flip ring D V St : length ring = n -> D <= V -> V < D + length St -> length St <= n -> ringok ring D V St ->
  ringok (alter (fun d => mkTxd (x_addr d) (x_len d) (negb (x_gen d)) (x_eop d) (x_compreq d)) (V mod n) ring)
    D (D + length St) St.
Proof.
  intros HL HV HV' HS [A B]. split.
  - intros j s Hj. pose proof (lookup_lt_Some _ _ _ Hj) as Lj. pose proof (A j s Hj) as E.
    unfold mark in *. destruct (Nat.eqb_spec (D + j) V) as [Q|Q].
    + rewrite Q in *. rewrite list_lookup_alter, E. cbn. rewrite negb_involutive.
      destruct (Nat.eqb_spec V (D + length St)) as [Y|Y]; [lia|]. done.
    + rewrite list_lookup_alter_ne.
      * rewrite E. destruct (Nat.eqb_spec (D + j) (D + length St)) as [Y|Y]; [lia|]. done.
      * replace V with (D + (V - D)) by lia. apply mod_ne; lia.
  - intros j Hj. rewrite list_lookup_alter_ne; [by apply B|]. replace V with (D + (V - D)) by lia. apply mod_ne; lia.
Qed.

Lemma ring_pop ring D V s St : D <> V -> ringok ring D V (s :: St) ->
  ring !! (D mod n) = Some (setg (gen n D) s) /\ ringok ring (S D) V St.
Proof.
  intros HD [A B]. pose proof (A 0 s eq_refl) as E0. rewrite Nat.add_0_r in E0. unfold mark in E0.
  destruct (Nat.eqb_spec D V) as [Y|Y]; [done|]. split; [done|]. split.
  - intros j s' Hj. pose proof (A (S j) s' Hj) as E. by replace (S D + j) with (D + S j) by lia.
  - intros j Hj. destruct (decide (S j = n)) as [Q|Q].
    + replace (S D + j) with (D + n) by lia. rewrite mod_lap by lia. exists (setg (gen n D) s). split; [done|].
      rewrite gen_lap by lia. by rewrite negb_involutive.
    + replace (S D + j) with (D + S j) by lia. apply B. cbn. lia.
Qed.

Lemma ring_none ring D V St : (St = [] \/ D = V) -> ringok ring D V St ->
  exists d, ring !! (D mod n) = Some d /\ x_gen d = negb (gen n D).
Proof.
  intros HS [A B]. destruct St as [|s St].
  - destruct (B 0) as (d & E & G); [cbn; lia|]. rewrite Nat.add_0_r in *. eauto.
  - destruct HS as [|HD]; [done|]. pose proof (A 0 s eq_refl) as E0. rewrite Nat.add_0_r in E0. unfold mark in E0.
    destruct (Nat.eqb_spec D V) as [Y|Y]; [|done]. eexists. split; [exact E0|]. done.
Qed.

Definition compok (comp : list txcomp) (K : nat) (L : list nat) : Prop :=
  (forall j e, L !! j = Some e -> comp !! ((K + j) mod n) = Some (e, gen n (K + j))) /\
  (forall j, length L <= j < n -> exists e, comp !! ((K + j) mod n) = Some (e, negb (gen n (K + j)))).

Lemma comp_push comp K L e : length comp = n -> length L < n -> compok comp K L ->
  compok (<[(K + length L) mod n := (e, gen n (K + length L))]> comp) K (L ++ [e]).
Proof.
  intros HL Hlt [A B]. pose proof (Nat.mod_upper_bound (K + length L) n ltac:(lia)) as Bd. split.
  - intros j s' Hj. apply lookup_app_Some in Hj as [Hj|[Hle Hj]].
    + pose proof (lookup_lt_Some _ _ _ Hj). rewrite list_lookup_insert_ne; [by apply A|]. apply mod_ne; lia.
    + apply list_lookup_singleton_Some in Hj as [Hz <-]. replace j with (length L) by lia.
      rewrite list_lookup_insert; [done|lia].
  - intros j Hj. rewrite app_length in Hj. cbn in Hj. rewrite list_lookup_insert_ne; [apply B; lia|]. apply mod_ne; lia.
Qed.

Lemma comp_pop comp K e L : compok comp K (e :: L) ->
  comp !! (K mod n) = Some (e, gen n K) /\ compok comp (S K) L.
Proof.
  intros [A B]. pose proof (A 0 e eq_refl) as E0. rewrite Nat.add_0_r in E0. split; [done|]. split.
  - intros j s' Hj. pose proof (A (S j) s' Hj) as E. by replace (S K + j) with (K + S j) by lia.
  - intros j Hj. destruct (decide (S j = n)) as [Q|Q].
    + replace (S K + j) with (K + n) by lia. rewrite mod_lap by lia. exists e. rewrite E0.
      rewrite gen_lap by lia. by rewrite negb_involutive.
    + replace (S K + j) with (K + S j) by lia. apply B. cbn. lia.
Qed.

Lemma comp_none comp K : compok comp K [] -> exists e, comp !! (K mod n) = Some (e, negb (gen n K)).
Proof. intros [A B]. destruct (B 0) as (e & E); [cbn; lia|]. rewrite Nat.add_0_r in E. eauto. Qed.

Fixpoint inflok (pos : nat) (l : list (nat * tchain)) : Prop :=
  match l with
  | [] => True
  | (i, c) :: l => i = (pos + length c.1 - 1) mod n /\ inflok (pos + length c.1) l
  end.
Lemma inflok_app pos l l' : inflok pos (l ++ l') <-> inflok pos l /\ inflok (pos + segments (l.*2)) l'.
Proof.
  revert pos. induction l as [|[i c] l IH]; intros pos; cbn [app inflok fmap list_fmap segments foldr].
  - rewrite Nat.add_0_r. tauto.
  - rewrite IH. cbn. fold (segments (l.*2)). rewrite Nat.add_assoc. tauto.
Qed.

Record txinv (q : txq) (v : txdev) (T K D V : nat) (St : list txdesc) (fw fp fq : list (nat * tchain)) : Prop := mkInv {
  I_ring : length (q_ring q) = n;
  I_comp : length (q_comp q) = n;
  I_tail : q_tail q = T mod n;
  I_next : v_next v = D mod n;
  I_vgen : v_gen v = gen n D;
  I_D : D = T + segments (fw.*2 ++ fp.*2) + length (v_acc v);
  I_V : V = T + segments (fw.*2 ++ fp.*2) + segments (fq.*2);
  I_acc : match fq with [] => v_acc v = [] | f :: _ => v_acc v = take (length (v_acc v)) (f.2).1 /\ length (v_acc v) < length (f.2).1 end;
  I_ok : Forall (fun f => chain_ok f.2) (fw ++ fp ++ fq);
  I_infl : q_infl q = fw ++ fp ++ fq;
  I_pos : inflok T (fw ++ fp ++ fq);
  I_cnext : q_cnext q = K mod n;
  I_cgen : q_cgen q = gen n K;
  I_cok : compok (q_comp q) K (fw.*1);
  I_vcnext : v_cnext v = (K + length fw) mod n;
  I_vcgen : v_cgen v = gen n (K + length fw);
  I_pend : v_pend v = fp.*1;
  I_head : q_head q = (D + length St) mod n;
  I_gen : q_gen q = gen n (D + length St);
  I_room : D + length St < T + n;
  I_rok : ringok (q_ring q) D V St;
  I_enq : match q_enq q with
          | None => St = drop (length (v_acc v)) (stream (fq.*2))
          | Some e => chain_ok (e_chain e) /\ exists m, m <= length (e_chain e).1 /\ e_rest e = drop m (e_chain e).1 /\
              St = drop (length (v_acc v)) (stream (fq.*2)) ++ take m (enc (e_chain e)) /\
              e_old e = V mod n /\ V + length (e_chain e).1 < T + n /\
              e_gen e = (if m =? 0 then negb (gen n V) else gen n (V + m))
          end }.
End rings.

(** ** Steps *)
Section steps.
Context (k : nat) (Hk : k <= 63).
Notation n := (2 ^ k).
Lemma n_pos : 0 < 2 ^ k.
Proof. pose proof (Nat.pow_nonzero 2 k); lia. Qed.

Notation INV := (txinv (2 ^ k)).

Lemma acc_le q v T K D V St fw fp fq : INV q v T K D V St fw fp fq -> length (v_acc v) <= segments (fq.*2).
Proof.
  intros I. pose proof (I_acc _ _ _ _ _ _ _ _ _ _ _ I) as A. destruct fq as [|f fq]; [rewrite A; cbn; lia|].
  destruct A as [_ A]. cbn. lia.
Qed.
Lemma rest_len q v T K D V St fw fp fq : INV q v T K D V St fw fp fq ->
  D + length (drop (length (v_acc v)) (stream (fq.*2))) = V.
Proof.
  intros I. pose proof (acc_le _ _ _ _ _ _ _ _ _ _ I). rewrite drop_length, stream_length.
  rewrite (I_D _ _ _ _ _ _ _ _ _ _ _ I), (I_V _ _ _ _ _ _ _ _ _ _ _ I). lia.
Qed.
Lemma inv_len q v T K D V St fw fp fq : INV q v T K D V St fw fp fq ->
  tx_len q = D + length St - T /\ T <= D + length St < T + 2 ^ k.
Proof.
  intros I. pose proof (I_room _ _ _ _ _ _ _ _ _ _ _ I). pose proof (I_D _ _ _ _ _ _ _ _ _ _ _ I).
  split; [|lia]. unfold tx_len, tx_capacity.
  rewrite (I_tail _ _ _ _ _ _ _ _ _ _ _ I), (I_head _ _ _ _ _ _ _ _ _ _ _ I), (I_ring _ _ _ _ _ _ _ _ _ _ _ I).
  apply count_dist; [done|lia].
Qed.
Lemma inv_idle_len q v T K D V St fw fp fq : INV q v T K D V St fw fp fq -> q_enq q = None ->
  D + length St = V /\ tx_len q = segments (fq.*2) + segments (fw.*2 ++ fp.*2).
Proof.
  intros I E. pose proof (rest_len _ _ _ _ _ _ _ _ _ _ I) as R. pose proof (I_enq _ _ _ _ _ _ _ _ _ _ _ I) as Q.
  rewrite E in Q. subst St. split; [done|]. destruct (inv_len _ _ _ _ _ _ _ _ _ _ I) as [L _]. rewrite L, R.
  rewrite (I_V _ _ _ _ _ _ _ _ _ _ _ I). lia.
Qed.

Lemma inv_start q v T K D V St fw fp fq c q' es : INV q v T K D V St fw fp fq -> q_enq q = None -> chain_ok c ->
  tx_enq_start q c = (q', es) ->
  INV q' v T K D V St fw fp fq /\ q_proc q' = q_proc q /\ q_last q' = q_last q /\ q_head q' = q_head q /\
  ((q_enq q' = None /\ es = [XvEnq c false] /\ n <= segments (fq.*2) + segments (fw.*2 ++ fp.*2) + length c.1) \/
   (q_enq q' = Some (mkEnq c c.1 (q_head q) (negb (q_gen q))) /\ es = [])).
Proof.
  intros I E C. destruct (inv_idle_len _ _ _ _ _ _ _ _ _ _ I E) as [HV L]. unfold tx_enq_start.
  destruct (Nat.leb_spec (length c.1) VMXNET3_TX_MAXSEGS) as [Z|Z]; [|destruct C as [[_ C] _]; unfold VMXNET3_TX_MAXSEGS in Z; lia].
  unfold tx_capacity. rewrite (I_ring _ _ _ _ _ _ _ _ _ _ _ I), L.
  pose proof (I_room _ _ _ _ _ _ _ _ _ _ _ I) as R. pose proof (I_V _ _ _ _ _ _ _ _ _ _ _ I) as EV.
  destruct (Nat.ltb_spec (n - 1 - (segments (fq.*2) + segments (fw.*2 ++ fp.*2))) (length c.1)) as [Y|Y]; intros [= <- <-].
  - split; [done|]. repeat (split; [done|]). left. split; [done|]. split; [done|]. lia.
  - split; [|by repeat (split; [done|]); right].
    destruct I. constructor; cbn; try done. split; [done|]. exists 0. rewrite E in *.
    split; [lia|]. split; [done|]. split; [rewrite take_0, app_nil_r; done|].
    rewrite HV in *. repeat (split; [done || lia|]). by rewrite I_gen0.
Qed.

Lemma encs_take_S fl l m a len r : drop m l = (a, len) :: r ->
  take (S m) (encs fl l) = take m (encs fl l) ++ [mkTxd a (len mod 2 ^ 14)%N false (match r with [] => true | _ => false end)
    ((match r with [] => true | _ => false end) && fl)].
Proof.
  revert m. induction l as [|[a0 b0] l IH]; intros m; [by rewrite drop_nil|].
  destruct m as [|m].
  - cbn [drop]. intros [= -> -> ->]. cbn [encs take app]. by rewrite take_0.
  - cbn [drop]. intros E. cbn [encs]. rewrite !firstn_cons. cbn [app]. f_equal. by apply IH.
Qed.

Lemma inv_step q v T K D V St fw fp fq q' es : INV q v T K D V St fw fp fq -> tx_enq_step q = Some (q', es) ->
  q_proc q' = q_proc q /\ q_last q' = q_last q /\ exists e, q_enq q = Some e /\
  ((es = [] /\ (exists e', q_enq q' = Some e' /\ e_chain e' = e_chain e /\ length (e_rest e) = S (length (e_rest e'))) /\
    exists St', INV q' v T K D V St' fw fp fq) \/
   (e_rest e = [] /\ es = [XvEnq (e_chain e) true] /\ q_enq q' = None /\
    segments (fq.*2) + segments (fw.*2 ++ fp.*2) + length (e_chain e).1 < n /\
    exists i, INV q' v T K D (V + length (e_chain e).1) St fw fp (fq ++ [(i, e_chain e)]))).
Proof.
  intros I. pose proof n_pos as Hn. unfold tx_enq_step.
  pose proof (I_enq _ _ _ _ _ _ _ _ _ _ _ I) as Q. pose proof (rest_len _ _ _ _ _ _ _ _ _ _ I) as R.
  pose proof (acc_le _ _ _ _ _ _ _ _ _ _ I) as Al.
  destruct (q_enq q) as [[c rest old g]|] eqn:E; [|done]. cbn [e_chain e_rest e_old e_gen] in Q.
  destruct Q as (C & m & Hm & Hr & HS & Ho & Hfit & Hg).
  assert (LS : length St = length (drop (length (v_acc v)) (stream fq.*2)) + m).
  { rewrite HS, app_length. f_equal. rewrite take_length, enc_length. lia. }
  assert (HVm : D + length St = V + m) by lia.
  destruct rest as [|[addr len] rest'].
  - intros [= <- <-]. split; [done|]. split; [done|]. eexists. split; [done|]. right. cbn [e_chain e_rest].
    assert (m = length c.1).
    { assert (length (drop m c.1) = 0) by by rewrite <- Hr. rewrite drop_length in *. lia. } subst m.
    split; [done|]. split; [done|]. split; [done|].
    pose proof (I_V _ _ _ _ _ _ _ _ _ _ _ I) as EV. split; [lia|].
    eexists. destruct C as [[C1 C2] C3].
    assert (HV : D <= V) by lia.
    pose proof (I_room _ _ _ _ _ _ _ _ _ _ _ I) as Room. pose proof (I_D _ _ _ _ _ _ _ _ _ _ _ I) as ED.
    destruct I. constructor; cbn [q_ring q_comp q_tail q_infl q_cnext q_cgen q_head q_gen q_enq q_proc]; try done.
    + by rewrite alter_length.
    + rewrite fmap_app, (segments_app (fq.*2)). match goal with |- context [segments ([(?i, c)].*2)] => change (segments ([(i, c)].*2)) with (length c.1 + 0) end. lia.
    + destruct fq as [|f fq']; cbn [app]; [|done]. cbn. rewrite I_acc0. done.
    + rewrite !app_assoc. apply Forall_app. split; [by rewrite <- app_assoc|]. apply stdpp.list.Forall_singleton. cbn. done.
    + rewrite I_infl0. rewrite <- !app_assoc. reflexivity.
    + rewrite !app_assoc. apply inflok_app. rewrite <- app_assoc. split; [done|]. cbn [inflok]. split; [|done].
      rewrite I_ring0, I_head0. rewrite pred_mod by lia. f_equal.
      rewrite !fmap_app, !segments_app. rewrite segments_app in EV. lia.
    + rewrite Ho. replace (V + length c.1) with (D + length St) by lia. apply ring_flip; try done; lia.
    + rewrite fmap_app, stream_app. cbn [fmap list_fmap snd]. unfold stream at 2. cbn [fmap list_fmap concat].
      rewrite app_nil_r. rewrite drop_app_le by (rewrite stream_length; lia). rewrite HS. f_equal.
      rewrite firstn_all2; [done|rewrite enc_length; lia].
  - pose proof (I_room _ _ _ _ _ _ _ _ _ _ _ I) as Room. pose proof (I_D _ _ _ _ _ _ _ _ _ _ _ I) as ED.
    assert (Hm' : S m <= length c.1).
    { assert (L : length (drop m c.1) = S (length rest')) by by rewrite <- Hr. rewrite drop_length in L. lia. }
    destruct (inv_len _ _ _ _ _ _ _ _ _ _ I) as [L _]. unfold tx_len, tx_capacity in L. rewrite L.
    rewrite (I_ring _ _ _ _ _ _ _ _ _ _ _ I).
    destruct (Nat.eqb_spec (n - (D + length St - T)) 1) as [Y|Y]; [lia|].
    intros [= <- <-]. split; [done|]. split; [done|]. eexists. split; [done|]. left. split; [done|].
    split; [eexists; cbn [q_enq e_chain e_rest length]; done|].
    set (s := mkTxd addr (len mod 2 ^ 14)%N false (match rest' with [] => true | _ => false end)
      ((match rest' with [] => true | _ => false end) && c.2)).
    exists (St ++ [s]).
    assert (Gh : (if S (q_head q) =? n then negb (q_gen q) else q_gen q) = gen n (D + length (St ++ [s]))).
    { rewrite app_length. cbn [length]. rewrite Nat.add_1_r, Nat.add_succ_r. rewrite gen_S by done.
      by rewrite (I_head _ _ _ _ _ _ _ _ _ _ _ I), (I_gen _ _ _ _ _ _ _ _ _ _ _ I). }
    destruct I. constructor; cbn [q_ring q_comp q_tail q_infl q_cnext q_cgen q_head q_gen q_enq q_proc]; try done.
    + by rewrite insert_length.
    + rewrite app_length. cbn [length]. rewrite Nat.add_1_r, Nat.add_succ_r. rewrite mod_S by done. by rewrite I_head0.
    + rewrite app_length. cbn. lia.
    + pose proof (ring_push n Hn (q_ring q) D V St s I_ring0 ltac:(lia) I_rok0) as P.
      rewrite I_head0. replace (mkTxd _ _ _ _ _) with (setg (mark n V (D + length St)) s); [done|].
      unfold setg, s. cbn. f_equal. rewrite Hg. unfold mark. rewrite HVm.
      destruct (Nat.eqb_spec m 0) as [Z|Z]; destruct (Nat.eqb_spec (V + m) V) as [X|X]; try lia; [|done].
      by subst m; rewrite Nat.add_0_r.
    + cbn [e_chain e_rest e_old e_gen]. split; [done|]. exists (S m). split; [done|]. split.
      { symmetry. rewrite <- Nat.add_1_r, <- drop_drop, <- Hr. done. }
      split.
      { rewrite HS, <- app_assoc. f_equal. unfold enc. symmetry. apply encs_take_S. by rewrite Hr. }
      split; [done|]. split; [done|]. etrans; [exact Gh|]. rewrite app_length. cbn [length Nat.eqb]. f_equal. lia.
Qed.

Lemma dev_len_ok l : (1 <= l <= 16384)%N -> dev_len (l mod 2 ^ 14)%N = l.
Proof.
  intros H. unfold dev_len. destruct (decide (l = 16384)%N) as [->|Hl]; [reflexivity|].
  change (2 ^ 14)%N with 16384%N. rewrite N.mod_small by lia. destruct (N.eqb_spec l 0); [lia|done].
Qed.

Lemma fetch_some q v T K D V St fw fp fq d : INV q v T K D V St fw fp fq -> dev_fetch q v = Some d ->
  D < V /\ q_ring q !! (D mod n) = Some d.
Proof.
  intros I. pose proof n_pos as Hn. unfold dev_fetch. rewrite (I_next _ _ _ _ _ _ _ _ _ _ _ I), (I_vgen _ _ _ _ _ _ _ _ _ _ _ I).
  pose proof (rest_len _ _ _ _ _ _ _ _ _ _ I) as R.
  destruct (q_ring q !! (D mod n)) as [d'|] eqn:E; [|done].
  destruct (eqb (x_gen d') (gen n D)) eqn:G; [|done]. intros [= ->]. apply eqb_prop in G. split; [|done].
  destruct (decide (D < V)) as [|Z]; [done|]. exfalso.
  destruct (ring_none n Hn _ _ _ _ (or_intror (ltac:(lia) : D = V)) (I_rok _ _ _ _ _ _ _ _ _ _ _ I)) as (d' & E' & G').
  rewrite E in E'. injection E' as <-. rewrite G in G'. by destruct (gen n D).
Qed.

Lemma St_split q v T K D V St fw fp fq : INV q v T K D V St fw fp fq ->
  exists X, St = drop (length (v_acc v)) (stream (fq.*2)) ++ X.
Proof.
  intros I. pose proof (I_enq _ _ _ _ _ _ _ _ _ _ _ I) as Q. destruct (q_enq q) as [e|].
  - destruct Q as (_ & m & _ & _ & Q & _). eauto.
  - exists []. by rewrite app_nil_r.
Qed.

Lemma fetch_none q v T K D V St fw fp fq : INV q v T K D V St fw fp fq -> dev_fetch q v = None -> D = V /\ fq = [].
Proof.
  intros I. pose proof n_pos as Hn. unfold dev_fetch. rewrite (I_next _ _ _ _ _ _ _ _ _ _ _ I), (I_vgen _ _ _ _ _ _ _ _ _ _ _ I).
  pose proof (rest_len _ _ _ _ _ _ _ _ _ _ I) as R. destruct (St_split _ _ _ _ _ _ _ _ _ _ I) as [X EX].
  intros F. assert (HD : D = V).
  { destruct (drop (length (v_acc v)) (stream fq.*2)) as [|s R'] eqn:ER; [cbn in R; lia|]. cbn [length] in R.
    exfalso. destruct (ring_pop n Hn (q_ring q) D V s (R' ++ X)) as [E _]; [lia|..].
    { replace (s :: R' ++ X) with St by by rewrite EX. by destruct I. }
    rewrite E in F. cbn [setg x_gen] in F. by rewrite eqb_reflx in F. }
  split; [done|]. pose proof (I_acc _ _ _ _ _ _ _ _ _ _ _ I) as A. destruct fq as [|f fq]; [done|]. destruct A as [_ A].
  rewrite HD in R. rewrite drop_length, stream_length in R. cbn in R. lia.
Qed.

Lemma inv_pop q v T K D V St fw fp fq q' v' es : INV q v T K D V St fw fp fq -> dev_step q v XPop = Some (q', v', es) ->
  q' = q /\ v_bell v' = true /\ v_bell v = true /\ D < V /\ exists f fq', fq = f :: fq' /\
  ((es = [] /\ exists St', INV q v' T K (S D) V St' fw fp fq) \/
   (es = [XvWire (f.2).1] /\ exists St', INV q v' T K (S D) V St' fw (fp ++ [f]) fq')).
Proof.
  intros I. pose proof n_pos as Hn. unfold dev_step. destruct (v_bell v); [|done].
  destruct (dev_fetch q v) as [d|] eqn:F; [|done].
  destruct (fetch_some _ _ _ _ _ _ _ _ _ _ _ I F) as [HD E].
  pose proof (rest_len _ _ _ _ _ _ _ _ _ _ I) as R. destruct (St_split _ _ _ _ _ _ _ _ _ _ I) as [X EX].
  pose proof (I_acc _ _ _ _ _ _ _ _ _ _ _ I) as A.
  destruct fq as [|f fq]; [cbn in R; rewrite drop_nil in R; cbn in R; lia|]. destruct A as [A1 A2].
  set (acc := v_acc v) in *. destruct f as [i c]. cbn [snd] in *.
  destruct (drop (length acc) c.1) as [|[a len] r] eqn:Er.
  { assert (length (drop (length acc) c.1) = 0) by by rewrite Er. rewrite drop_length in *. lia. }
  assert (Lr : length c.1 = length acc + S (length r)).
  { assert (length (drop (length acc) c.1) = S (length r)) by by rewrite Er. rewrite drop_length in *. lia. }
  set (s := mkTxd a (len mod 2 ^ 14)%N false (match r with [] => true | _ => false end)
      ((match r with [] => true | _ => false end) && c.2)).
  assert (ER : drop (length acc) (stream ((i, c) :: fq).*2) = s :: encs c.2 r ++ stream (fq.*2)).
  { unfold stream. cbn [fmap list_fmap concat]. cbn [snd]. rewrite drop_app_le by (rewrite enc_length; lia).
    unfold enc at 1. rewrite encs_drop, Er. done. }
  assert (ER' : drop (S (length acc)) (stream ((i, c) :: fq).*2) = encs c.2 r ++ stream (fq.*2)).
  { rewrite <- Nat.add_1_r, <- drop_drop, ER. done. }
  set (St' := (encs c.2 r ++ stream (fq.*2)) ++ X).
  assert (ES : St = s :: St') by by rewrite EX, ER.
  assert (Hds : d = setg (gen n D) s /\ ringok n (q_ring q) (S D) V St').
  { destruct (ring_pop n Hn (q_ring q) D V s St') as [E1 E2]; [lia|rewrite <- ES; by destruct I|].
    rewrite E in E1. injection E1 as ->. done. }
  destruct Hds as [Hd Hrok].
  assert (Hx : (x_addr d, dev_len (x_len d)) = (a, len)).
  { rewrite Hd. cbn. f_equal. apply dev_len_ok.
    pose proof (I_ok _ _ _ _ _ _ _ _ _ _ _ I) as OK. rewrite !stdpp.list.Forall_app in OK. destruct OK as (_ & _ & OK).
    apply Forall_cons in OK as [[_ OK] _]. cbn [snd] in OK.
    rewrite Forall_forall in OK. specialize (OK (a, len)). cbn in OK. apply OK.
    rewrite <- (take_drop (length acc) c.1), Er. set_solver. }
  rewrite Hx. assert (Hacc : acc ++ [(a, len)] = take (S (length acc)) c.1).
  { rewrite A1 at 1. rewrite <- (take_drop (length acc) c.1) at 2. rewrite Er.
    rewrite firstn_app. rewrite take_take. rewrite take_length. f_equal.
    - f_equal. lia.
    - replace (S (length acc) - length acc `min` length c.1) with 1 by lia. done. }
  assert (Nx : (if S (v_next v) =? length (q_ring q) then 0 else S (v_next v)) = S D mod n).
  { rewrite mod_S by done. by rewrite (I_ring _ _ _ _ _ _ _ _ _ _ _ I), (I_next _ _ _ _ _ _ _ _ _ _ _ I). }
  assert (Ng : (if S (v_next v) =? length (q_ring q) then negb (v_gen v) else v_gen v) = gen n (S D)).
  { rewrite gen_S by done. by rewrite (I_ring _ _ _ _ _ _ _ _ _ _ _ I), (I_next _ _ _ _ _ _ _ _ _ _ _ I), (I_vgen _ _ _ _ _ _ _ _ _ _ _ I). }
  rewrite Nx, Ng. assert (Hsl : D + length St = S D + length St') by (rewrite ES; cbn; lia).
  assert (Hen : match q_enq q with
          | None => X = []
          | Some e => chain_ok (e_chain e) /\ exists m, m <= length (e_chain e).1 /\ e_rest e = drop m (e_chain e).1 /\
              X = take m (enc (e_chain e)) /\
              e_old e = V mod n /\ V + length (e_chain e).1 < T + n /\
              e_gen e = (if m =? 0 then negb (gen n V) else gen n (V + m))
          end).
  { pose proof (I_enq _ _ _ _ _ _ _ _ _ _ _ I) as Q. fold acc in Q. destruct (q_enq q) as [e|].
    - destruct Q as (Q0 & m & Q1 & Q2 & Q3 & Q4). split; [done|]. exists m. split; [done|]. split; [done|]. split; [|done].
      rewrite EX in Q3. by apply app_inv_head in Q3.
    - rewrite EX in Q. rewrite <- (app_nil_r (drop _ _)) in Q at 2. by apply app_inv_head in Q. }
  assert (Eeop : x_eop d = match r with [] => true | _ => false end) by by rewrite Hd.
  rewrite Eeop. destruct r as [|x r'] eqn:Hr.
  - intros [= <- <- <-]. split; [done|]. split; [done|]. split; [done|]. split; [done|]. eexists _, _. split; [done|]. right.
    assert (Full : take (S (length acc)) c.1 = c.1) by (apply firstn_all2; cbn in Lr; lia).
    split; [by rewrite Hacc, Full|]. exists St'.
    assert (Hi : i = D mod n).
    { pose proof (I_pos _ _ _ _ _ _ _ _ _ _ _ I) as P. rewrite app_assoc, inflok_app in P. destruct P as [_ P]. cbn [inflok] in P.
      destruct P as [-> _]. f_equal. rewrite (I_D _ _ _ _ _ _ _ _ _ _ _ I). fold acc. rewrite fmap_app. cbn [length] in Lr. lia. }
    destruct I. constructor; cbn [v_next v_gen v_acc v_pend v_cnext v_cgen v_bell]; try done.
    + rewrite I_D0. fold acc. rewrite fmap_app, app_assoc, (segments_app (_ ++ _)).
      change (segments [(i, c)].*2) with (length c.1 + 0). cbn [length] in *. lia.
    + rewrite I_V0. rewrite fmap_app, app_assoc, (segments_app (_ ++ fp.*2)).
      change (segments ((i, c) :: fq).*2) with (length c.1 + segments fq.*2).
      change (segments [(i, c)].*2) with (length c.1 + 0). lia.
    + destruct fq as [|f' fq']; [done|]. split; [by rewrite take_0|]. cbn.
      rewrite !stdpp.list.Forall_app in I_ok0. destruct I_ok0 as (_ & _ & OK).
      apply Forall_cons in OK as [_ OK]. apply Forall_cons in OK as [[[OK _] _] _]. lia.
    + by rewrite <- (app_assoc fp [_]).
    + by rewrite <- (app_assoc fp [_]).
    + by rewrite <- (app_assoc fp [_]).
    + rewrite I_pend0, fmap_app. cbn. by rewrite I_next0, Hi.
    + by rewrite <- Hsl.
    + by rewrite <- Hsl.
    + lia.
    + cbn [encs app] in *. unfold St'. destruct (q_enq q) as [e|].
      * destruct Hen as (Q0 & m & Q1 & Q2 & Q3 & Q4). split; [done|]. exists m. rewrite drop_0. subst X. done.
      * subst X. by rewrite app_nil_r, drop_0.
  - intros [= <- <- <-]. split; [done|]. split; [done|]. split; [done|]. split; [done|]. eexists _, _. split; [done|]. left.
    split; [done|]. exists St'.
    destruct I. constructor; cbn [v_next v_gen v_acc v_pend v_cnext v_cgen v_bell]; try done.
    + rewrite I_D0. fold acc. rewrite app_length. cbn. lia.
    + cbn [snd]. rewrite app_length, Nat.add_1_r, Hacc. split; [done|]. cbn [length] in Lr. lia.
    + by rewrite <- Hsl.
    + by rewrite <- Hsl.
    + lia.
    + rewrite app_length, Nat.add_1_r. unfold St'. rewrite <- ER'. destruct (q_enq q) as [e|].
      * destruct Hen as (Q0 & m & Q1 & Q2 & Q3 & Q4). split; [done|]. exists m. subst X. done.
      * subst X. by rewrite app_nil_r.
Qed.

Lemma seg_ge (l : list (nat * tchain)) : Forall (fun f => chain_ok f.2) l -> length l <= segments (l.*2).
Proof.
  induction 1 as [|f l [[H _] _] _ IH]; [done|]. change (segments (f :: l).*2) with (length (f.2).1 + segments l.*2).
  cbn [length]. lia.
Qed.

Lemma inv_comp q v T K D V St fw fp fq q' v' es : INV q v T K D V St fw fp fq -> dev_step q v XComp = Some (q', v', es) ->
  es = [] /\ q_proc q' = q_proc q /\ q_last q' = q_last q /\ q_head q' = q_head q /\ q_enq q' = q_enq q /\ v_bell v' = v_bell v /\
  exists f fp', fp = f :: fp' /\ INV q' v' T K D V St (fw ++ [f]) fp' fq.
Proof.
  intros I. pose proof n_pos as Hn. unfold dev_step. rewrite (I_pend _ _ _ _ _ _ _ _ _ _ _ I).
  destruct fp as [|f fp]; [done|]. cbn [fmap list_fmap]. intros [= <- <- <-]. repeat (split; [done|]).
  eexists _, _. split; [done|].
  assert (Lw : length fw < n).
  { pose proof (I_ok _ _ _ _ _ _ _ _ _ _ _ I) as OK. rewrite !stdpp.list.Forall_app in OK. destruct OK as (OK1 & OK2 & _).
    pose proof (seg_ge _ OK1). pose proof (seg_ge _ OK2) as S2. cbn [length] in S2.
    pose proof (I_room _ _ _ _ _ _ _ _ _ _ _ I) as R. pose proof (I_D _ _ _ _ _ _ _ _ _ _ _ I) as ED.
    rewrite segments_app in ED. lia. }
  assert (Ea : fw ++ (f :: fp) ++ fq = (fw ++ [f]) ++ fp ++ fq) by by rewrite <- app_assoc.
  assert (Es : fw.*2 ++ (f :: fp).*2 = (fw ++ [f]).*2 ++ fp.*2) by by rewrite fmap_app, <- app_assoc.
  destruct I. rewrite Ea, Es in *.
  constructor; cbn [q_ring q_comp q_tail q_infl q_cnext q_cgen q_head q_gen q_enq q_proc v_next v_gen v_acc v_pend v_cnext v_cgen v_bell]; try done.
  - by rewrite insert_length.
  - rewrite fmap_app. cbn [fmap list_fmap]. rewrite I_vcnext0, I_vcgen0.
    pose proof (comp_push n Hn (q_comp q) K (fw.*1) f.1) as P. rewrite fmap_length in P. by apply P.
  - rewrite app_length, Nat.add_1_r, Nat.add_succ_r, mod_S by done. by rewrite I_vcnext0, I_comp0.
  - rewrite app_length, Nat.add_1_r, Nat.add_succ_r, gen_S by done. by rewrite I_vcnext0, I_comp0, I_vcgen0.
Qed.

Lemma inv_collect q v T K D V St fw fp fq : INV q v T K D V St fw fp fq ->
  forall fuel exact p, length fw < fuel ->
  exists q' T' K' fc fw', tx_collect fuel exact q p = Some (q', p + length fc) /\ fw = fc ++ fw' /\
    (exact = false -> length fc <= 1) /\ (exact = true -> fw' = []) /\ (fw <> [] -> fc <> []) /\
    q_proc q' = q_proc q ++ fc.*2 /\ q_last q' = q_last q /\ q_head q' = q_head q /\ q_enq q' = q_enq q /\
    INV q' v T' K' D V St fw' fp fq.
Proof.
  pose proof n_pos as Hn. revert q T K. induction fw as [|[i c] fw IH]; intros q T K I fuel exact p Hf.
  - destruct (comp_none n Hn _ _ (I_cok _ _ _ _ _ _ _ _ _ _ _ I)) as [e E].
    exists q, T, K, [], []. assert (X : tx_collect fuel exact q p = Some (q, p)).
    { destruct fuel; cbn [tx_collect]; rewrite (I_cnext _ _ _ _ _ _ _ _ _ _ _ I), E, (I_cgen _ _ _ _ _ _ _ _ _ _ _ I);
        by destruct (gen n K). }
    rewrite X. cbn. rewrite Nat.add_0_r, app_nil_r. repeat (split; [done || lia|]). done.
  - destruct fuel as [|fuel]; [cbn in Hf; lia|].
    destruct (comp_pop n Hn _ _ _ _ (I_cok _ _ _ _ _ _ _ _ _ _ _ I)) as [E Hc]. cbn [fst] in E.
    cbn [tx_collect]. rewrite (I_cnext _ _ _ _ _ _ _ _ _ _ _ I), E, (I_cgen _ _ _ _ _ _ _ _ _ _ _ I), eqb_reflx.
    rewrite (I_infl _ _ _ _ _ _ _ _ _ _ _ I). cbn [app]. rewrite Nat.eqb_refl.
    match goal with |- context [tx_collect fuel exact ?x (S p)] => set (q1 := x) end.
    assert (I1 : INV q1 v (T + length c.1) (S K) D V St fw fp fq).
    { assert (Ci : i = (T + length c.1 - 1) mod n).
      { pose proof (I_pos _ _ _ _ _ _ _ _ _ _ _ I) as P. cbn [app inflok] in P. tauto. }
      assert (Cl : 1 <= length c.1).
      { pose proof (I_ok _ _ _ _ _ _ _ _ _ _ _ I) as P. cbn [app] in P. apply Forall_cons in P as [[[P _] _] _]. done. }
      destruct I. subst q1.
      constructor; cbn [q_ring q_comp q_tail q_infl q_cnext q_cgen q_head q_gen q_enq q_proc]; try done.
      - rewrite I_ring0, Ci.
        replace (S ((T + length c.1 - 1) mod n)) with (1 + (T + length c.1 - 1) mod n) by lia.
        rewrite Nat.add_mod_idemp_r by lia. f_equal. lia.
      - rewrite I_D0. cbn [fmap list_fmap app]. change (segments (?a :: ?l)) with (length a.1 + segments l). cbn [snd]. lia.
      - rewrite I_V0. cbn [fmap list_fmap app]. change (segments ((i, c).2 :: ?l)) with (length c.1 + segments l). lia.
      - by apply Forall_cons in I_ok0 as [_ ?].
      - cbn [app inflok] in I_pos0. tauto.
      - rewrite mod_S by done. by rewrite I_comp0.
      - rewrite gen_S by done. by rewrite I_comp0.
      - rewrite I_vcnext0. cbn [length]. f_equal. lia.
      - rewrite I_vcgen0. cbn [length]. f_equal. lia.
      - lia.
      - destruct (q_enq q) as [e|]; [|done]. destruct I_enq0 as (Q0 & m & Q1 & Q2 & Q3 & Q4 & Q5 & Q6).
        split; [done|]. exists m. repeat (split; [done|]). split; [lia|done]. }
    destruct exact.
    + destruct (IH q1 _ _ I1 fuel true (S p) ltac:(cbn in Hf; lia)) as (q' & T' & K' & fc & fw' & E1 & E2 & E3 & E4 & E5 & E6 & E7 & E8 & E9 & E10).
      exists q', T', K', ((i, c) :: fc), fw'. rewrite E1. split; [f_equal; f_equal; cbn; lia|]. split; [by rewrite E2|].
      split; [done|]. split; [done|]. split; [done|]. split; [|done].
      rewrite E6. subst q1. cbn [q_proc]. by rewrite <- app_assoc.
    + exists q1, (T + length c.1), (S K), [(i, c)], fw. split; [f_equal; f_equal; cbn; lia|]. split; [done|].
      split; [cbn; lia|]. split; [done|]. split; [done|]. done.
Qed.

Definition absn (q : txq) (fw fp fq : list (nat * tchain)) : nicq := mkNic (fq.*2) (fw.*2 ++ fp.*2) (q_proc q).
Definition enqlen (q : txq) : nat := match q_enq q with Some e => length (e_chain e).1 | None => 0 end.
Definition bellok (u : bool) (q : txq) (v : txdev) (D V : nat) : Prop :=
  exists L, (q_last q = Some (L mod n) \/ (q_last q = None /\ L = 0)) /\ L <= V /\ V + enqlen q < L + n /\
    (u = false -> L = V /\ q_enq q = None) /\ (v_bell v = true \/ L <= D).
Definition unext (u : bool) (a : txact) : bool := match a with XEnq _ => true | XFlush => false | _ => u end.
Definition uok (u : bool) (a : txact) : Prop := match a with XEnq _ => u = false | _ => True end.
Definition meas (q : txq) (v : txdev) (D V : nat) (fp : list (nat * tchain)) : nat :=
  match q_enq q with Some e => S (length (e_rest e)) + 2 * length (e_chain e).1 | None => 0 end
  + 2 * (V - D) + length fp + (if v_bell v then 1 else 0).

Lemma nic_one nq e nq' : nic_step n nq e nq' -> nic_steps n nq [e] nq'.
Proof. intros H. eapply NQS_cons; [exact H|constructor]. Qed.

Lemma inv_bell q v T K D V St fw fp fq b : INV q v T K D V St fw fp fq ->
  INV q (mkDev (v_next v) (v_gen v) (v_acc v) (v_pend v) (v_cnext v) (v_cgen v) b) T K D V St fw fp fq.
Proof. intros []. by constructor. Qed.
Lemma inv_last q v T K D V St fw fp fq l : INV q v T K D V St fw fp fq ->
  INV (mkTxq (q_ring q) (q_gen q) (q_comp q) (q_cnext q) (q_cgen q) (q_tail q) (q_head q) l (q_infl q) (q_proc q) (q_enq q))
    v T K D V St fw fp fq.
Proof. intros []. by constructor. Qed.
Lemma inv_proc q v T K D V St fw fp fq l : INV q v T K D V St fw fp fq ->
  INV (mkTxq (q_ring q) (q_gen q) (q_comp q) (q_cnext q) (q_cgen q) (q_tail q) (q_head q) (q_last q) (q_infl q) l (q_enq q))
    v T K D V St fw fp fq.
Proof. intros []. by constructor. Qed.

Lemma fw_lt q v T K D V St fw fp fq : INV q v T K D V St fw fp fq -> length fw < S (length (q_comp q)).
Proof.
  intros I. rewrite (I_comp _ _ _ _ _ _ _ _ _ _ _ I).
  pose proof (I_ok _ _ _ _ _ _ _ _ _ _ _ I) as OK. rewrite !stdpp.list.Forall_app in OK. destruct OK as (OK1 & OK2 & _).
  pose proof (seg_ge _ OK1). pose proof (seg_ge _ OK2) as S2.
  pose proof (I_room _ _ _ _ _ _ _ _ _ _ _ I) as R. pose proof (I_D _ _ _ _ _ _ _ _ _ _ _ I) as ED.
  rewrite segments_app in ED. lia.
Qed.

Lemma inv_can q v T K D V St fw fp fq exact : INV q v T K D V St fw fp fq ->
  exists q' T' K' fc fw', tx_can_dequeue q exact = Some (q', length fc) /\ fw = fc ++ fw' /\
    (exact = false -> length fc <= 1) /\ (exact = true -> fw' = []) /\ (fw <> [] -> fc <> []) /\
    q_proc q' = q_proc q ++ fc.*2 /\ q_last q' = q_last q /\ q_head q' = q_head q /\ q_enq q' = q_enq q /\
    INV q' v T' K' D V St fw' fp fq.
Proof.
  intros I. apply (inv_collect _ _ _ _ _ _ _ _ _ _ I (S (length (q_comp q))) exact 0).
  by eapply fw_lt.
Qed.

Lemma bellok_same u q q' v D V : q_last q' = q_last q -> q_enq q' = q_enq q -> bellok u q v D V -> bellok u q' v D V.
Proof. intros E1 E2 (L & H). exists L. unfold enqlen in *. by rewrite E1, E2. Qed.

Lemma x_sim q v T K D V St fw fp fq a q' v' es : INV q v T K D V St fw fp fq -> act_ok a ->
  x_step (q, v) a = Some (q', v', es) ->
  exists T' K' D' V' St' fw' fp' fq', INV q' v' T' K' D' V' St' fw' fp' fq' /\
    nic_steps n (absn q fw fp fq) es (absn q' fw' fp' fq') /\
    (forall u, uok u a -> bellok u q v D V -> bellok (unext u a) q' v' D' V') /\
    (x_internal a -> meas q' v' D' V' fp' < meas q v D V fp).
Proof.
  intros I OK. pose proof n_pos as Hn. unfold x_step. destruct a.
  - (* XEnq *) destruct (q_enq q) eqn:E; [done|]. destruct (tx_enq_start q c) as [q1 e1] eqn:Es. intros [= <- <- <-].
    destruct (inv_start _ _ _ _ _ _ _ _ _ _ _ _ _ I E OK Es) as (I1 & P1 & P2 & P3 & P4).
    exists T, K, D, V, St, fw, fp, fq. split; [done|]. destruct P4 as [(E1 & -> & Hc)|(E1 & ->)].
    + split; [|split; [|done]].
      * apply nic_one. unfold absn. rewrite P1. by constructor.
      * cbn. intros u -> (L & B1 & B2 & B3 & B4 & B5). exists L. rewrite P2. split; [done|]. split; [done|].
        unfold enqlen in *. rewrite E in B3. rewrite E1. split; [done|]. split; [done|done].
    + split; [|split; [|done]].
      * unfold absn. rewrite P1. constructor.
      * cbn. intros u -> (L & B1 & B2 & B3 & B4 & B5). exists L. rewrite P2. split; [done|]. split; [done|].
        unfold enqlen. rewrite E1. cbn [e_chain].
        pose proof (I_enq _ _ _ _ _ _ _ _ _ _ _ I1) as Q. rewrite E1 in Q. cbn [e_chain e_rest e_old e_gen] in Q.
        destruct Q as (_ & m & _ & _ & _ & _ & Q & _). destruct (B4 eq_refl) as [-> _].
        pose proof (I_V _ _ _ _ _ _ _ _ _ _ _ I). split; [lia|]. split; [done|done].
  - (* XStep *) destruct (tx_enq_step q) as [[q1 e1]|] eqn:Es; [|done]. intros [= <- <- <-].
    destruct (inv_step _ _ _ _ _ _ _ _ _ _ _ _ I Es) as (P1 & P2 & e & E & [(-> & (e' & E' & P3 & P4) & St' & I')|(P3 & -> & P4 & P5 & i & I')]).
    + exists T, K, D, V, St', fw, fp, fq. split; [done|]. split; [unfold absn; rewrite P1; constructor|]. split.
      * cbn. intros u _ (L & B1 & B2 & B3 & B4 & B5). exists L. rewrite P2. split; [done|]. split; [done|].
        unfold enqlen in *. rewrite E', P3. rewrite E in B3. split; [done|]. split; [|done].
        intros Hu. destruct (B4 Hu) as [_ Bad]. by rewrite E in Bad.
      * intros _. unfold meas. rewrite E, E', P3. lia.
    + exists T, K, D, (V + length (e_chain e).1), St, fw, fp, (fq ++ [(i, e_chain e)]). split; [done|]. split.
      * apply nic_one. unfold absn. rewrite P1, fmap_app. by constructor.
      * split.
        -- cbn. intros u _ (L & B1 & B2 & B3 & B4 & B5). exists L. rewrite P2. split; [done|]. split; [lia|].
           unfold enqlen in *. rewrite P4. rewrite E in B3. split; [lia|]. split; [|done].
           intros Hu. destruct (B4 Hu) as [_ Bad]. by rewrite E in Bad.
        -- intros _. unfold meas. rewrite E, P4, P3. cbn [length]. pose proof (rest_len _ _ _ _ _ _ _ _ _ _ I). lia.
  - (* XFlush *) destruct (q_enq q) eqn:E; [done|]. unfold tx_flush.
    destruct (inv_idle_len _ _ _ _ _ _ _ _ _ _ I E) as [HV _].
    destruct (decide (q_last q = Some (q_head q))) as [Hl|Hl]; intros [= <- <- <-];
      exists T, K, D, V, St, fw, fp, fq.
    + split; [by apply inv_bell|]. split; [apply nic_one; constructor|]. split; [|done].
      cbn. intros u _ (L & B1 & B2 & B3 & B4 & B5). exists L. split; [done|]. split; [done|]. split; [done|]. split; [|by rewrite orb_false_r].
      intros _. split; [|done]. destruct B1 as [B1|[B1 _]]; [|congruence]. rewrite Hl in B1. injection B1 as B1.
      rewrite (I_head _ _ _ _ _ _ _ _ _ _ _ I), HV in B1. symmetry. unfold enqlen in B3. rewrite E in B3.
      apply (mod_window n L); [done|lia|lia|done].
    + split; [by apply inv_bell, inv_last|]. split; [apply nic_one; destruct (absn q fw fp fq) eqn:X; unfold absn in *; cbn [q_proc]; rewrite X; constructor|].
      split; [|done]. cbn. intros u _ _. exists V. cbn [q_last v_bell]. rewrite orb_true_r.
      split; [left; by rewrite (I_head _ _ _ _ _ _ _ _ _ _ _ I), HV|]. split; [done|].
      unfold enqlen. cbn [q_enq]. rewrite E. split; [lia|]. split; [done|by left].
  - (* XCan *) destruct (q_enq q) eqn:E; [done|].
    destruct (inv_can _ _ _ _ _ _ _ _ _ _ exact I) as (q1 & T1 & K1 & fc & fw' & E1 & E2 & E3 & E4 & E5 & E6 & E7 & E8 & E9 & E10).
    rewrite E1. intros [= <- <- <-]. exists T1, K1, D, V, St, fw', fp, fq. split; [done|]. split.
    + apply nic_one. unfold absn. rewrite E6, E2, fmap_app, <- app_assoc.
      rewrite <- (fmap_length snd fc). constructor. by rewrite fmap_length.
    + split; [|done]. cbn. intros u _. by apply bellok_same; [|rewrite E9].
  - (* XDeq *) destruct (q_enq q) eqn:E; [done|]. unfold tx_dequeue. destruct (q_proc q) as [|c0 pr] eqn:Epr.
    + destruct (inv_can _ _ _ _ _ _ _ _ _ _ false I) as (q1 & T1 & K1 & fc & fw' & E1 & E2 & E3 & E4 & E5 & E6 & E7 & E8 & E9 & E10).
      rewrite E1. destruct fc as [|f fc].
      * cbn [length Nat.leb]. intros [= <- <- <-]. exists T1, K1, D, V, St, fw', fp, fq. split; [done|]. split.
        -- apply nic_one. unfold absn. rewrite E6, Epr, E2. constructor.
        -- split; [|done]. cbn. intros u _. by apply bellok_same; [|rewrite E9].
      * destruct fc; [|specialize (E3 eq_refl); cbn in E3; lia]. cbn [length Nat.leb]. unfold tx_pop.
        rewrite E6, Epr. cbn [app fmap list_fmap]. intros [= <- <- <-].
        exists T1, K1, D, V, St, fw', fp, fq. split; [by apply inv_proc|]. split.
        -- apply nic_one. unfold absn. rewrite Epr, E2. cbn [q_proc app fmap list_fmap]. constructor.
        -- split; [|done]. cbn. intros u _. by apply bellok_same; [|rewrite E9].
    + unfold tx_pop. rewrite Epr. intros [= <- <- <-]. exists T, K, D, V, St, fw, fp, fq. split; [by apply inv_proc|]. split.
      * apply nic_one. unfold absn. rewrite Epr. cbn [q_proc]. constructor.
      * split; [|done]. cbn. intros u _. by apply bellok_same.
  - (* XPop *) intros Es. destruct (inv_pop _ _ _ _ _ _ _ _ _ _ _ _ _ I Es) as (-> & P1 & P0 & P2 & f & fq' & -> & [(-> & St' & I')|(-> & St' & I')]).
    + exists T, K, (S D), V, St', fw, fp, (f :: fq'). split; [done|]. split; [constructor|]. split.
      * cbn. intros u _ (L & B1 & B2 & B3 & B4 & B5). exists L. rewrite P1. repeat (split; [done|]). by left.
      * intros _. unfold meas. rewrite P1, P0. lia.
    + exists T, K, (S D), V, St', fw, (fp ++ [f]), fq'. split; [done|]. split.
      * apply nic_one. unfold absn. rewrite fmap_app, app_assoc. cbn [fmap list_fmap]. constructor.
      * split.
        -- cbn. intros u _ (L & B1 & B2 & B3 & B4 & B5). exists L. rewrite P1. repeat (split; [done|]). by left.
        -- intros _. unfold meas. rewrite P1, P0, app_length. cbn [length]. lia.
  - (* XSleep *) unfold dev_step. destruct (v_bell v) eqn:Eb; [|done]. destruct (dev_fetch q v) eqn:F; [done|].
    intros [= <- <- <-]. destruct (fetch_none _ _ _ _ _ _ _ _ _ _ I F) as [HD _].
    exists T, K, D, V, St, fw, fp, fq. split; [by apply inv_bell|]. split; [constructor|]. split.
    + cbn. intros u _ (L & B1 & B2 & B3 & B4 & B5). exists L. repeat (split; [done|]). right. lia.
    + intros _. unfold meas. cbn [v_bell]. rewrite Eb. lia.
  - (* XComp *) intros Es. destruct (inv_comp _ _ _ _ _ _ _ _ _ _ _ _ _ I Es) as (-> & P1 & P2 & P3 & P4 & P5 & f & fp' & -> & I').
    exists T, K, D, V, St, (fw ++ [f]), fp', fq. split; [done|]. split.
    + unfold absn. rewrite P1, fmap_app, <- app_assoc. constructor.
    + split.
      * cbn. intros u _ (L & B). exists L. unfold enqlen in *. by rewrite P2, P4, P5.
      * intros _. unfold meas. rewrite P4, P5. cbn [length]. lia.
Qed.
End steps.

(** ** Histories *)
Section runs.
Context (k : nat) (Hk : k <= 63).
Notation n := (2 ^ k).
Notation INV := (txinv (2 ^ k)).

Lemma inv_init : INV (tx_new n) dev_new 0 0 0 0 [] [] [] [].
Proof.
  pose proof (n_pos k Hk) as Hn.
  constructor; cbn [tx_new dev_new q_ring q_comp q_tail q_infl q_cnext q_cgen q_head q_gen q_enq q_proc v_next v_gen v_acc v_pend v_cnext v_cgen v_bell fmap list_fmap length Nat.add segments foldr app]; rewrite ?Nat.mod_0_l, ?gen_0 by lia; try done; try (cbn; lia).
  - by rewrite replicate_length.
  - by rewrite replicate_length.
  - split; [done|]. intros j Hj. cbn in Hj. exists 0. cbn [Nat.add]. rewrite Nat.mod_small by lia.
    rewrite lookup_replicate_2 by lia. unfold gen. rewrite Nat.div_small by lia. done.
  - split; [done|]. intros j Hj. cbn in Hj. exists txd_default. cbn [Nat.add]. rewrite Nat.mod_small by lia.
    rewrite lookup_replicate_2 by lia. unfold gen. rewrite Nat.div_small by lia. done.
Qed.

Lemma bell_init : bellok k false (tx_new n) dev_new 0 0.
Proof.
  pose proof (n_pos k Hk). exists 0. split; [by right|]. split; [lia|]. split; [cbn; lia|]. split; [done|]. by right.
Qed.

Lemma nic_app a es b es' c : nic_steps n a es b -> nic_steps n b es' c -> nic_steps n a (es ++ es') c.
Proof. induction 1; [done|]. intros. econstructor; [done|]. by apply IHnic_steps. Qed.

Lemma x_run_sim l : forall q v T K D V St fw fp fq q' v' es, INV q v T K D V St fw fp fq -> Forall act_ok l ->
  x_run (q, v) l = Some (q', v', es) ->
  exists T' K' D' V' St' fw' fp' fq', INV q' v' T' K' D' V' St' fw' fp' fq' /\
    nic_steps n (absn q fw fp fq) es (absn q' fw' fp' fq') /\
    (forall u, flushes u l -> bellok k u q v D V -> bellok k (foldl unext u l) q' v' D' V') /\
    (Forall x_internal l -> meas q' v' D' V' fp' + length l <= meas q v D V fp).
Proof.
  induction l as [|a l IH]; intros q v T K D V St fw fp fq q' v' es I OK.
  - cbn. intros [= <- <- <-]. exists T, K, D, V, St, fw, fp, fq. split; [done|]. split; [constructor|]. split; [done|]. lia.
  - apply Forall_cons in OK as [OK1 OK2]. cbn [x_run]. destruct (x_step (q, v) a) as [[[q1 v1] e1]|] eqn:E1; [|done].
    destruct (x_run (q1, v1) l) as [[[q2 v2] e2]|] eqn:E2; [|done]. intros [= <- <- <-].
    destruct (x_sim k Hk _ _ _ _ _ _ _ _ _ _ _ _ _ _ I OK1 E1) as (T1 & K1 & D1 & V1 & St1 & fw1 & fp1 & fq1 & I1 & N1 & B1 & M1).
    destruct (IH _ _ _ _ _ _ _ _ _ _ _ _ _ I1 OK2 E2) as (T' & K' & D' & V' & St' & fw' & fp' & fq' & I' & N' & B' & M').
    exists T', K', D', V', St', fw', fp', fq'. split; [done|]. split; [by eapply nic_app|]. split.
    + intros u F Bu. cbn [foldl]. apply B'.
      * destruct a; cbn in F |- *; try done. by destruct F.
      * apply B1; [|done]. destruct a; cbn in F |- *; try done. by destruct F.
    + intros F. apply Forall_cons in F as [F1 F2]. specialize (M1 F1). specialize (M' F2). cbn [length]. lia.
Qed.

Lemma nic_fine a es b : nic_steps n a es b -> XvPanic ∉ es.
Proof. induction 1 as [|a e b es c H _ IH]; [set_solver|]. apply not_elem_of_cons. split; [|done]. intros <-. inversion H. Qed.

Lemma meas_bound q v T K D V St fw fp fq : INV q v T K D V St fw fp fq -> meas q v D V fp <= 2 * n + 32.
Proof.
  intros I. pose proof (n_pos k Hk) as Hn. pose proof (rest_len k Hk _ _ _ _ _ _ _ _ _ _ I) as R.
  pose proof (I_D _ _ _ _ _ _ _ _ _ _ _ I) as ED. pose proof (I_room _ _ _ _ _ _ _ _ _ _ _ I) as Room.
  pose proof (I_ok _ _ _ _ _ _ _ _ _ _ _ I) as OK. rewrite !stdpp.list.Forall_app in OK. destruct OK as (_ & OK & _).
  apply (seg_ge k Hk) in OK. rewrite segments_app in ED. unfold meas.
  pose proof (I_enq _ _ _ _ _ _ _ _ _ _ _ I) as Q. destruct (q_enq q) as [e|].
  - destruct Q as ([[_ C] _] & m & _ & Q2 & _ & _ & Q5 & _). rewrite Q2, drop_length. destruct (v_bell v); lia.
  - subst St. destruct (v_bell v); lia.
Qed.

Lemma quiet_empty q v T K D V St fw fp fq : INV q v T K D V St fw fp fq -> bellok k false q v D V ->
  (forall a, x_internal a -> x_step (q, v) a = None) -> fp = [] /\ fq = [] /\ q_enq q = None.
Proof.
  intros I (L & _ & _ & _ & B4 & B5) Q. destruct (B4 eq_refl) as [-> Eq].
  pose proof (Q XPop Logic.I) as Q1. pose proof (Q XSleep Logic.I) as Q2. pose proof (Q XComp Logic.I) as Q3. cbn in Q1, Q2, Q3.
  assert (Eb : v_bell v = false).
  { destruct (v_bell v); [|done]. destruct (dev_fetch q v) as [d|]; [|done]. by destruct (x_eop d). }
  destruct B5 as [B5|B5]; [congruence|]. rewrite (I_pend _ _ _ _ _ _ _ _ _ _ _ I) in Q3.
  split; [by destruct fp|]. split; [|done].
  pose proof (rest_len k Hk _ _ _ _ _ _ _ _ _ _ I) as R. pose proof (I_acc _ _ _ _ _ _ _ _ _ _ _ I) as A.
  destruct fq as [|f fq]; [done|]. destruct A as [_ A]. rewrite drop_length, stream_length in R. cbn in R. lia.
Qed.
End runs.
