From Verif Require Import Base RtlModel RtlSpec.

Definition covered (s : rst) (from m : nat) (cs : list nat) : Prop :=
  forall c, c ∈ cs -> exists id, from <= id /\ r_tgt s !! id = Some (TCore (m, c)) /\ id ∈ r_ack s.
Definition own (s : rst) (g : core) (start : nat) : Prop :=
  exists id, start <= id /\ r_tgt s !! id = Some (TCore g) /\ id ∈ r_ack s.
Definition asked (s : rst) (m start : nat) (ids : list nat) (c : nat) : Prop :=
  exists id, start <= id /\ r_tgt s !! id = Some (TCore (m, c)) /\ (id ∈ ids \/ id ∈ r_ack s).
Definition rem_ok (s : rst) (m : nat) (todo rids : list nat) (start : nat) (handles : list (list nat)) : Prop :=
  forall i cs, 1 <= i -> handles !! i = Some cs -> i ∈ todo \/ i = m \/ cs = [] \/
    exists id, start <= id /\ r_tgt s !! id = Some (TMach i cs) /\ (id ∈ rids \/ id ∈ r_ack s).
Definition kok (s : rst) (m : nat) (k : kont) (goal : list nat) (start : nat) : Prop :=
  match k with
  | KAck id => r_tgt s !! id = Some (TMach m goal) /\ id <= start
  | KRem rids start' handles => handles !! m = Some goal /\ start = start' /\ rem_ok s m [] rids start' handles
  end.
Definition fok (s : rst) (g : core) (f : frame) : Prop :=
  match f with
  | FFlush id => True
  | FEnq k todo ids goal start => start <= length (r_tgt s) /\ kok s (fst g) k goal start /\
      forall c, c ∈ goal -> c ∈ todo \/ c = snd g \/ asked s (fst g) start ids c
  | FLoc k b ids goal start => kok s (fst g) k goal start /\ own s g start /\
      forall c, c ∈ goal -> c = snd g \/ asked s (fst g) start ids c
  | FSend bell todo rids start handles => start <= length (r_tgt s) /\ rem_ok s (fst g) todo rids start handles
  | FWait b rids start handles => rem_ok s (fst g) [] rids start handles /\ own s g start /\
      exists cs, handles !! fst g = Some cs /\ covered s start (fst g) cs
  end.
Definition done_ok (s : rst) (d : core * list (list nat) * nat) : Prop :=
  own s (fst (fst d)) (snd d) /\
  forall i cs, 1 <= i -> snd (fst d) !! i = Some cs -> covered s (snd d) i cs.
Record rinv (s : rst) : Prop := {
  ri_acklt : forall id, id ∈ r_ack s -> id < length (r_tgt s);
  ri_core : forall id g, id ∈ r_ack s -> r_tgt s !! id = Some (TCore g) -> (g, id) ∈ r_flushed s \/ FFlush id ∈ r_st s g;
  ri_mach : forall id m cs, id ∈ r_ack s -> r_tgt s !! id = Some (TMach m cs) -> covered s id m cs;
  ri_lq : forall g id, id ∈ r_lq s g -> r_tgt s !! id = Some (TCore g);
  ri_rq : forall m id cs, (id, cs) ∈ r_rq s m -> r_tgt s !! id = Some (TMach m cs);
  ri_fr : forall g f, f ∈ r_st s g -> fok s g f;
  ri_done : forall d, d ∈ r_done s -> done_ok s d }.

Definition ext (s s' : rst) : Prop :=
  (exists l, r_tgt s' = r_tgt s ++ l) /\ (forall id, id ∈ r_ack s -> id ∈ r_ack s') /\
  (forall x, x ∈ r_flushed s -> x ∈ r_flushed s').
Lemma ext_tgt s s' id t : ext s s' -> r_tgt s !! id = Some t -> r_tgt s' !! id = Some t.
Proof. intros ((l & E) & _) H. rewrite E. by apply lookup_app_l_Some. Qed.
Lemma ext_len s s' : ext s s' -> length (r_tgt s) <= length (r_tgt s').
Proof. intros ((l & E) & _). rewrite E, app_length. lia. Qed.
Lemma covered_mono s s' a m cs : ext s s' -> covered s a m cs -> covered s' a m cs.
Proof.
  intros X H c Hc. destruct (H c Hc) as (id & A & B & C). exists id. split; [done|].
  split; [by eapply ext_tgt|]. destruct X as (_ & X & _). auto.
Qed.
Lemma own_mono s s' g a : ext s s' -> own s g a -> own s' g a.
Proof.
  intros X (id & A & B & C). exists id. split; [done|]. split; [by eapply ext_tgt|]. destruct X as (_ & X & _). auto.
Qed.
Lemma asked_mono s s' m a ids c : ext s s' -> asked s m a ids c -> asked s' m a ids c.
Proof.
  intros X (id & A & B & C). exists id. split; [done|]. split; [by eapply ext_tgt|]. destruct X as (_ & X & _). naive_solver.
Qed.
Lemma rem_mono s s' m todo rids a h : ext s s' -> rem_ok s m todo rids a h -> rem_ok s' m todo rids a h.
Proof.
  intros X H i cs I L. destruct (H i cs I L) as [?|[?|[?|(id & A & B & C)]]]; [by left|by right; left|by right; right; left|].
  right. right. right. exists id. split; [done|]. split; [by eapply ext_tgt|]. destruct X as (_ & X & _). naive_solver.
Qed.
Lemma kok_mono s s' m k goal a : ext s s' -> kok s m k goal a -> kok s' m k goal a.
Proof.
  intros X. destruct k; cbn [kok].
  - intros [A B]. split; [by eapply ext_tgt|done].
  - intros (A & B & C). split; [done|]. split; [done|]. by eapply rem_mono.
Qed.
Lemma fok_mono s s' g f : ext s s' -> fok s g f -> fok s' g f.
Proof.
  intros X. pose proof (ext_len _ _ X) as L. destruct f; cbn [fok].
  - done.
  - intros (A & B & C). split; [lia|]. split; [by eapply kok_mono|]. intros c Hc.
    destruct (C c Hc) as [?|[?|?]]; [by left|by right; left|right; right; by eapply asked_mono].
  - intros (A & B & C). split; [by eapply kok_mono|]. split; [by eapply own_mono|]. intros c Hc.
    destruct (C c Hc) as [?|?]; [by left|right; by eapply asked_mono].
  - intros (A & B). split; [lia|]. by eapply rem_mono.
  - intros (A & B & cs & C & D). split; [by eapply rem_mono|]. split; [by eapply own_mono|].
    exists cs. split; [done|]. by eapply covered_mono.
Qed.
Lemma done_mono s s' d : ext s s' -> done_ok s d -> done_ok s' d.
Proof.
  intros X [A B]. split; [by eapply own_mono|]. intros i cs I L. eapply covered_mono; [done|]. by apply B.
Qed.

Lemma set_core_eq {A} (f : core -> A) g x : set_core f g x g = x.
Proof. unfold set_core. by rewrite !Nat.eqb_refl. Qed.
Lemma set_core_ne {A} (f : core -> A) g h x : h <> g -> set_core f g x h = f h.
Proof.
  intros NE. unfold set_core. destruct (Nat.eqb_spec (fst h) (fst g)) as [EA|EA]; [|done].
  destruct (Nat.eqb_spec (snd h) (snd g)) as [EB|EB]; [|done]. destruct NE. destruct h, g. cbn in EA, EB. congruence.
Qed.
Lemma set_mach_eq {A} (f : nat -> A) m x : set_mach f m x m = x.
Proof. unfold set_mach. by rewrite Nat.eqb_refl. Qed.
Lemma set_mach_ne {A} (f : nat -> A) m h x : h <> m -> set_mach f m x h = f h.
Proof. intros. unfold set_mach. by destruct (Nat.eqb_spec h m). Qed.

Lemma rinv_step s s' g st' : rinv s -> ext s s' ->
  r_st s' = set_core (r_st s) g st' ->
  (forall f, f ∈ st' -> f ∈ r_st s g \/ fok s' g f) ->
  (forall id, FFlush id ∈ r_st s g -> FFlush id ∈ st' \/ (g, id) ∈ r_flushed s') ->
  (forall id, id ∈ r_ack s' -> id ∈ r_ack s \/ (id < length (r_tgt s') /\
     (forall h, r_tgt s' !! id = Some (TCore h) -> (h, id) ∈ r_flushed s' \/ (h = g /\ FFlush id ∈ st')) /\
     (forall m cs, r_tgt s' !! id = Some (TMach m cs) -> covered s' id m cs))) ->
  (forall h id, id ∈ r_lq s' h -> id ∈ r_lq s h \/ r_tgt s' !! id = Some (TCore h)) ->
  (forall m id cs, (id, cs) ∈ r_rq s' m -> (id, cs) ∈ r_rq s m \/ r_tgt s' !! id = Some (TMach m cs)) ->
  (forall d, d ∈ r_done s' -> d ∈ r_done s \/ done_ok s' d) ->
  rinv s'.
Proof.
  intros [I0 I1 I2 I3 I4 I5 I6] X St Fr Fl Ak Lq Rq Dn. pose proof (ext_len _ _ X) as Len.
  assert (BK : forall id t, id ∈ r_ack s -> r_tgt s' !! id = Some t -> r_tgt s !! id = Some t).
  { intros id t H L. destruct X as ((l & E) & _). rewrite E in L. rewrite lookup_app_l in L by (by apply I0). done. }
  split.
  - intros id H. destruct (Ak id H) as [O|(O & _)]; [apply I0 in O; lia|done].
  - intros id h H T. destruct (Ak id H) as [O|(_ & O & _)].
    + destruct (I1 id h O (BK _ _ O T)) as [F|F]; [left; destruct X as (_ & _ & X); auto|].
      destruct (decide (h = g)) as [->|Ne].
      * destruct (Fl id F) as [F'|F']; [right; by rewrite St, set_core_eq|by left].
      * right. by rewrite St, set_core_ne.
    + destruct (O h T) as [F|[-> F]]; [by left|right; by rewrite St, set_core_eq].
  - intros id m cs H T. destruct (Ak id H) as [O|(_ & _ & O)]; [|by apply O].
    eapply covered_mono; [done|]. by apply (I2 id m cs O), BK.
  - intros h id H. destruct (Lq h id H) as [O|O]; [|done]. eapply ext_tgt; [done|]. by apply I3.
  - intros m id cs H. destruct (Rq m id cs H) as [O|O]; [|done]. eapply ext_tgt; [done|]. by apply I4.
  - intros h f H. rewrite St in H. destruct (decide (h = g)) as [->|Ne].
    + rewrite set_core_eq in H. destruct (Fr f H) as [O|O]; [|done]. eapply fok_mono; [done|]. by apply I5.
    + rewrite set_core_ne in H by done. eapply fok_mono; [done|]. by apply I5.
  - intros d H. destruct (Dn d H) as [O|O]; [|done]. eapply done_mono; [done|]. by apply I6.
Qed.
Lemma ext_refl s s' : r_tgt s' = r_tgt s -> r_ack s' = r_ack s -> r_flushed s' = r_flushed s -> ext s s'.
Proof. intros A B C. split; [exists []; by rewrite app_nil_r|]. rewrite B, C. by split. Qed.

(** The frames of [st] were there before; only [top] is new. *)
Lemma rinv_top s g old top st : rinv s -> r_st s g = old :: st ->
  (forall id, old <> FFlush id) -> (forall id, top <> FFlush id) ->
  (fok s g old -> fok s g top) -> rinv (w_top s g (top :: st)).
Proof.
  intros I E N1 N2 F. eapply (rinv_step s _ g (top :: st) I).
  - by apply ext_refl.
  - done.
  - intros f Hf. apply elem_of_cons in Hf as [->|Hf].
    + right. apply (fok_mono s); [by apply ext_refl|]. apply F, (ri_fr s I). rewrite E. by left.
    + left. rewrite E. by right.
  - intros id H. rewrite E in H. apply elem_of_cons in H as [H|H]; [by destruct (N1 id)|]. left. by right.
  - intros id H. by left.
  - intros h id H. by left.
  - intros m id cs H. by left.
  - intros d H. by left.
Qed.
Lemma rinv_crash s : rinv s -> rinv (w_crash s).
Proof.
  intros [I0 I1 I2 I3 I4 I5 I6]. split; try done.
Qed.
Lemma rinv_dequeue s g old st rest : rinv s -> (r_st s g = old ++ st) -> (forall id, FFlush id ∉ old) ->
  (exists old', rest = old' ++ st /\ forall f, f ∈ old' -> fok s g f) -> rinv (r_dequeue s g rest).
Proof.
  intros I E NF (old' & -> & FO). unfold r_dequeue. destruct (r_lq s g) as [|id q] eqn:Q.
  - eapply (rinv_step s _ g (old' ++ st) I).
    + by apply ext_refl.
    + done.
    + intros f Hf. apply elem_of_app in Hf as [Hf|Hf].
      * right. apply (fok_mono s); [by apply ext_refl|]. by apply FO.
      * left. rewrite E. apply elem_of_app. by right.
    + intros i H. rewrite E in H. apply elem_of_app in H as [H|H]; [by destruct (NF i)|]. left. apply elem_of_app. by right.
    + intros i H. by left.
    + intros h i H. by left.
    + intros m i cs H. by left.
    + intros d H. by left.
  - assert (T : r_tgt s !! id = Some (TCore g)) by (apply (ri_lq s I); rewrite Q; by left).
    assert (X : ext s (w_top (w_ack (w_lq s (set_core (r_lq s) g q)) (id :: r_ack s)) g (FFlush id :: old' ++ st))).
    { split; [exists []; by rewrite app_nil_r|]. split; [|done]. intros i H. by right. }
    eapply (rinv_step s _ g (FFlush id :: old' ++ st) I).
    + done.
    + done.
    + intros f Hf. apply elem_of_cons in Hf as [->|Hf]; [by right|]. apply elem_of_app in Hf as [Hf|Hf].
      * right. apply (fok_mono s); [done|]. by apply FO.
      * left. rewrite E. apply elem_of_app. by right.
    + intros i H. rewrite E in H. apply elem_of_app in H as [H|H]; [by destruct (NF i)|]. left. right. apply elem_of_app. by right.
    + intros i H. cbn in H. apply elem_of_cons in H as [->|H]; [|by left]. right.
      split; [by apply lookup_lt_Some in T|]. split.
      * intros h Th. cbn in Th. rewrite T in Th. injection Th as <-. right. split; [done|by left].
      * intros m cs Tm. cbn in Tm. rewrite T in Tm. discriminate Tm.
    + intros h i H. left. cbn in H. destruct (decide (h = g)) as [->|Ne].
      * rewrite set_core_eq in H. rewrite Q. by right.
      * by rewrite set_core_ne in H.
    + intros m i cs H. by left.
    + intros d H. by left.
Qed.
Lemma rinv_remote_dequeue s g old st rest : rinv s -> (r_st s g = old ++ st) -> (forall id, FFlush id ∉ old) ->
  (exists old', rest = old' ++ st /\ forall f, f ∈ old' -> fok s g f) -> rinv (r_remote_dequeue s g rest).
Proof.
  intros I E NF (old' & -> & FO). unfold r_remote_dequeue. destruct (Nat.eqb (fst g) 0); [by apply rinv_crash|].
  destruct (r_rq s (fst g)) as [|[id cs] q] eqn:Q.
  - eapply (rinv_step s _ g (old' ++ st) I).
    + by apply ext_refl.
    + done.
    + intros f Hf. apply elem_of_app in Hf as [Hf|Hf].
      * right. apply (fok_mono s); [by apply ext_refl|]. by apply FO.
      * left. rewrite E. apply elem_of_app. by right.
    + intros i H. rewrite E in H. apply elem_of_app in H as [H|H]; [by destruct (NF i)|]. left. apply elem_of_app. by right.
    + intros i H. by left.
    + intros h i H. by left.
    + intros m i cs H. by left.
    + intros d H. by left.
  - assert (T : r_tgt s !! id = Some (TMach (fst g) cs)) by (apply (ri_rq s I); rewrite Q; by left).
    match goal with |- rinv (w_top ?a ?b (?c :: _)) => set (fr := c); set (s1 := a) end.
    assert (X : ext s (w_top s1 g (fr :: old' ++ st))) by (by apply ext_refl).
    eapply (rinv_step s _ g (fr :: old' ++ st) I).
    + done.
    + done.
    + intros f Hf. apply elem_of_cons in Hf as [->|Hf].
      * right. unfold fr. cbn [fok]. split; [done|]. split.
        -- split; [done|]. apply lookup_lt_Some in T. cbn. lia.
        -- intros c Hc. by left.
      * apply elem_of_app in Hf as [Hf|Hf]; [right; apply (fok_mono s); [done|]; by apply FO|].
        left. rewrite E. apply elem_of_app. by right.
    + intros i H. rewrite E in H. apply elem_of_app in H as [H|H]; [by destruct (NF i)|]. left. right. apply elem_of_app. by right.
    + intros i H. by left.
    + intros h i H. by left.
    + intros m i cs' H. left. cbn in H. destruct (decide (m = fst g)) as [->|Ne].
      * rewrite set_mach_eq in H. rewrite Q. by right.
      * by rewrite set_mach_ne in H.
    + intros d H. by left.
Qed.

Lemma rinv_rstep cap rcap n nm s g s' : rinv s -> r_step cap rcap n nm s g = Some s' -> rinv s'.
Proof.
  intros I St. unfold r_step in St. destruct (r_st s g) as [|f st] eqn:E; [discriminate|].
  assert (F0 : fok s g f) by (apply (ri_fr s I); rewrite E; by left).
  assert (ST : forall f', f' ∈ st -> f' ∈ r_st s g) by (intros f' H; rewrite E; by right).
  destruct f as [id|k todo ids goal start|k b ids goal start|bell todo rids start handles|b rids start handles].
  - (* flush *)
    injection St as <-. eapply (rinv_step s _ g st I).
    + split; [exists []; by rewrite app_nil_r|]. split; [done|]. intros x H. by right.
    + done.
    + intros f Hf. left. by apply ST.
    + intros i H. rewrite E in H. apply elem_of_cons in H as [H|H]; [|by left]. injection H as <-. right. by left.
    + intros i H. by left.
    + intros h i H. by left.
    + intros m i cs H. by left.
    + intros d H. by left.
  - destruct todo as [|c todo].
    + (* own flush *)
      injection St as <-. set (id := length (r_tgt s)).
      match goal with |- rinv (w_top ?a _ _) => set (s1 := a) end.
      assert (X : ext s (w_top s1 g (FLoc k false ids goal start :: st))).
      { split; [by exists [TCore g]|]. split; intros x H; by right. }
      assert (T : r_tgt s1 !! id = Some (TCore g)) by (by apply list_lookup_middle).
      destruct F0 as (L & K & G).
      eapply (rinv_step s _ g (FLoc k false ids goal start :: st) I).
      * done.
      * done.
      * intros f Hf. apply elem_of_cons in Hf as [->|Hf]; [|left; by apply ST]. right. cbn [fok].
        split; [by eapply kok_mono|]. split; [exists id; split; [done|]; split; [done|by left]|].
        intros c Hc. destruct (G c Hc) as [A|[A|A]]; [by apply elem_of_nil in A|by left|right; by eapply asked_mono].
      * intros i H. rewrite E in H. apply elem_of_cons in H as [H|H]; [discriminate H|left; by right].
      * intros i H. cbn in H. apply elem_of_cons in H as [->|H]; [|by left]. right.
        split; [by apply lookup_lt_Some in T|]. split.
        -- intros h Th. left. cbn in Th, T. rewrite T in Th. injection Th as <-. by left.
        -- intros m cs Tm. cbn in Tm, T. rewrite T in Tm. discriminate Tm.
      * intros h i H. by left.
      * intros m i cs H. by left.
      * intros d H. by left.
    + destruct (Nat.eqb_spec c (snd g)) as [C|C].
      * injection St as <-. eapply rinv_top; [done|exact E|done|done|].
        intros (L & K & G). split; [done|]. split; [done|]. intros c' Hc.
        destruct (G c' Hc) as [A|[A|A]]; [|by right; left|by right; right].
        apply elem_of_cons in A as [->|A]; [by right; left|by left].
      * destruct (negb (Nat.ltb c n)); [injection St as <-; by apply rinv_crash|].
        destruct (Nat.ltb (length (r_lq s (fst g, c))) cap); [|injection St as <-; by apply rinv_crash].
        injection St as <-. set (id := length (r_tgt s)).
        match goal with |- rinv (w_top ?a _ (?b :: _)) => set (s1 := a); set (fr := b) end.
        assert (X : ext s (w_top s1 g (fr :: st))).
        { split; [by exists [TCore (fst g, c)]|]. by split. }
        assert (T : r_tgt s1 !! id = Some (TCore (fst g, c))) by (by apply list_lookup_middle).
        destruct F0 as (L & K & G).
        eapply (rinv_step s _ g (fr :: st) I).
        -- done.
        -- done.
        -- intros f Hf. apply elem_of_cons in Hf as [->|Hf]; [|left; by apply ST]. right. unfold fr. cbn [fok].
           split; [exact (Nat.le_trans _ _ _ L (ext_len _ _ X))|]. split; [by eapply kok_mono|].
           intros c' Hc. destruct (G c' Hc) as [A|[A|A]]; [|by right; left|].
           ++ apply elem_of_cons in A as [->|A]; [|by left]. right. right. exists id. split; [done|].
              split; [done|]. left. apply elem_of_app. right. by left.
           ++ right. right. apply (asked_mono _ _ _ _ _ _ X) in A. destruct A as (i & A1 & A2 & A3). exists i.
              split; [done|]. split; [done|]. destruct A3 as [A3|A3]; [left; apply elem_of_app; by left|by right].
        -- intros i H. rewrite E in H. apply elem_of_cons in H as [H|H]; [discriminate H|left; by right].
        -- intros i H. by left.
        -- intros h i H. cbn in H. destruct (decide (h = (fst g, c))) as [->|Ne].
           ++ rewrite set_core_eq in H. apply elem_of_app in H as [H|H]; [by left|]. right.
              apply elem_of_list_singleton in H as ->. done.
           ++ rewrite set_core_ne in H by done. by left.
        -- intros m i cs H. by left.
        -- intros d H. by left.
  - destruct b.
    + injection St as <-. eapply rinv_top; [done|exact E|done|done|].
      intros (K & O & G). split; [done|]. split; [done|]. intros c Hc.
      destruct (G c Hc) as [A|(i & A1 & A2 & A3)]; [by left|]. right. exists i. split; [done|]. split; [done|].
      destruct A3 as [A3|A3]; [|by right]. destruct (decide (i ∈ r_ack s)) as [D|D]; [by right|left].
      by apply elem_of_list_filter.
    + destruct ids as [|i0 ids].
      * destruct F0 as (K & O & G).
        assert (CV : covered s start (fst g) goal).
        { intros c Hc. destruct (G c Hc) as [->|(i & A1 & A2 & [A3|A3])].
          - destruct O as (i & O1 & O2 & O3). exists i. split; [done|]. split; [|done]. by rewrite <- surjective_pairing.
          - by apply elem_of_nil in A3.
          - by exists i. }
        destruct k as [id|rids start' handles].
        -- injection St as <-. destruct K as [T LE].
           assert (X : ext s (w_top (w_ack s (id :: r_ack s)) g st)).
           { split; [exists []; by rewrite app_nil_r|]. split; [|done]. intros x H. by right. }
           eapply (rinv_step s _ g st I).
           ++ done.
           ++ done.
           ++ intros f Hf. left. by apply ST.
           ++ intros i H. rewrite E in H. apply elem_of_cons in H as [H|H]; [discriminate H|by left].
           ++ intros i H. cbn in H. apply elem_of_cons in H as [->|H]; [|by left]. right.
              split; [by apply lookup_lt_Some in T|]. split.
              ** intros h Th. cbn in Th. rewrite T in Th. discriminate Th.
              ** intros m cs Tm. cbn in Tm. rewrite T in Tm. injection Tm as <- <-.
                 apply (covered_mono s); [done|]. intros c Hc. destruct (CV c Hc) as (i & A1 & A2 & A3).
                 exists i. split; [lia|done].
           ++ intros h i H. by left.
           ++ intros m i cs H. by left.
           ++ intros d H. by left.
        -- injection St as <-. eapply rinv_top; [done|exact E|done|done|].
           intros _. destruct K as (K1 & -> & K3). split; [done|]. split; [done|]. by exists goal.
      * injection St as <-. eapply (rinv_dequeue s g [FLoc k false (i0 :: ids) goal start] st); [done|exact E| |].
        -- intros id H. apply elem_of_list_singleton in H. discriminate H.
        -- exists [FLoc k true (i0 :: ids) goal start]. split; [done|]. intros f H.
           apply elem_of_list_singleton in H as ->. exact F0.
  - destruct bell as [i|].
    + injection St as <-. eapply (rinv_step s _ g (FSend None todo rids start handles :: st) I).
      * by apply ext_refl.
      * done.
      * intros f Hf. apply elem_of_cons in Hf as [->|Hf]; [|left; by apply ST]. right. exact F0.
      * intros id H. rewrite E in H. apply elem_of_cons in H as [H|H]; [discriminate H|left; by right].
      * intros id H. by left.
      * intros h id H. by left.
      * intros m id cs H. by left.
      * intros d H. by left.
    + destruct todo as [|i todo].
      * destruct (handles !! fst g) as [cores|] eqn:HG; [|injection St as <-; by apply rinv_crash].
        injection St as <-. eapply rinv_top; [done|exact E|done|done|].
        intros (L & R). split; [done|]. split; [by split|]. intros c Hc. by left.
      * destruct (handles !! i) as [cores|] eqn:HI; [|injection St as <-; by apply rinv_crash].
        destruct (Nat.eqb_spec i (fst g)) as [Ei|Ei]; cbn [orb] in St.
        { injection St as <-. eapply rinv_top; [done|exact E|done|done|].
          intros (L & R). split; [done|]. intros j cs J H. destruct (R j cs J H) as [A|A]; [|by right].
          apply elem_of_cons in A as [->|A]; [right; by left|by left]. }
        destruct (Nat.eqb_spec (length cores) 0) as [Ec|Ec].
        { injection St as <-. eapply rinv_top; [done|exact E|done|done|].
          intros (L & R). split; [done|]. intros j cs J H. destruct (R j cs J H) as [A|A]; [|by right].
          apply elem_of_cons in A as [->|A]; [|by left]. right. right. left. rewrite HI in H. injection H as <-.
          by apply nil_length_inv. }
        destruct (negb (Nat.ltb i nm)); [injection St as <-; by apply rinv_crash|].
        destruct (Nat.ltb (length (r_rq s i)) rcap); [|injection St as <-; by apply rinv_crash].
        injection St as <-. set (id := length (r_tgt s)).
        match goal with |- rinv (w_top ?a _ (?b :: _)) => set (s1 := a); set (fr := b) end.
        assert (X : ext s (w_top s1 g (fr :: st))).
        { split; [by exists [TMach i cores]|]. by split. }
        assert (T : r_tgt s1 !! id = Some (TMach i cores)) by (by apply list_lookup_middle).
        destruct F0 as (L & R).
        eapply (rinv_step s _ g (fr :: st) I).
        -- done.
        -- done.
        -- intros f Hf. apply elem_of_cons in Hf as [->|Hf]; [|left; by apply ST]. right. unfold fr. cbn [fok].
           split; [exact (Nat.le_trans _ _ _ L (ext_len _ _ X))|]. apply (rem_mono _ _ _ _ _ _ _ X) in R.
           intros j cs J H. destruct (R j cs J H) as [A|[A|[A|(x & A1 & A2 & A3)]]].
           ++ apply elem_of_cons in A as [->|A]; [|by left]. right. right. right. exists id. split; [done|].
              rewrite HI in H. injection H as <-. split; [done|]. left. apply elem_of_app. right. by left.
           ++ right. by left.
           ++ right. right. by left.
           ++ right. right. right. exists x. split; [done|]. split; [done|].
              destruct A3 as [A3|A3]; [left; apply elem_of_app; by left|by right].
        -- intros x H. rewrite E in H. apply elem_of_cons in H as [H|H]; [discriminate H|left; by right].
        -- intros x H. by left.
        -- intros h x H. by left.
        -- intros m x cs H. cbn in H. destruct (decide (m = i)) as [->|Ne].
           ++ rewrite set_mach_eq in H. apply elem_of_app in H as [H|H]; [by left|]. right.
              apply elem_of_list_singleton in H. injection H as -> ->. done.
           ++ rewrite set_mach_ne in H by done. by left.
        -- intros d H. by left.
  - destruct F0 as (R & O & cs & HG & CV). destruct b as [|[|b]].
    + destruct rids as [|r0 rids].
      * injection St as <-. eapply (rinv_step s _ g st I).
        -- by apply ext_refl.
        -- done.
        -- intros f Hf. left. by apply ST.
        -- intros i H. rewrite E in H. apply elem_of_cons in H as [H|H]; [discriminate H|by left].
        -- intros i H. by left.
        -- intros h i H. by left.
        -- intros m i cs' H. by left.
        -- intros d H. cbn in H. apply elem_of_cons in H as [->|H]; [|by left]. right. split; cbn [fst snd]; [done|].
           intros i cs' Hi H. destruct (R i cs' Hi H) as [A|[->|[->|(x & A1 & A2 & A3)]]].
           ++ by apply elem_of_nil in A.
           ++ rewrite HG in H. injection H as <-. done.
           ++ intros c Hc. by apply elem_of_nil in Hc.
           ++ destruct A3 as [A3|A3]; [by apply elem_of_nil in A3|].
              intros c Hc. destruct (ri_mach s I x i cs' A3 A2 c Hc) as (y & B1 & B2 & B3). exists y. split; [lia|done].
      * injection St as <-. eapply (rinv_dequeue s g [FWait 0 (r0 :: rids) start handles] st); [done|exact E| |].
        -- intros id H. apply elem_of_list_singleton in H. discriminate H.
        -- exists [FWait 1 (r0 :: rids) start handles]. split; [done|]. intros f H.
           apply elem_of_list_singleton in H as ->. split; [done|]. split; [done|]. by exists cs.
    + injection St as <-. eapply (rinv_remote_dequeue s g [FWait 1 rids start handles] st); [done|exact E| |].
      * intros id H. apply elem_of_list_singleton in H. discriminate H.
      * exists [FWait 2 rids start handles]. split; [done|]. intros f H.
        apply elem_of_list_singleton in H as ->. split; [done|]. split; [done|]. by exists cs.
    + injection St as <-. eapply rinv_top; [done|exact E|done|done|].
      intros _. split; [|split; [done|by exists cs]]. intros i cs' Hi H.
      destruct (R i cs' Hi H) as [A|[A|[A|(x & A1 & A2 & A3)]]]; [by left|by right; left|by right; right; left|].
      right. right. right. exists x. split; [done|]. split; [done|].
      destruct A3 as [A3|A3]; [|by right]. destruct (decide (x ∈ r_ack s)) as [D|D]; [by right|left].
      by apply elem_of_list_filter.
Qed.
Lemma rinv_pend s x : rinv s -> rinv (w_pend s x).
Proof. intros [I0 I1 I2 I3 I4 I5 I6]. split; try done. Qed.
Lemma rinv_label cap rcap n nm s l s' : rinv s -> r_label cap rcap n nm s l = Some s' -> rinv s'.
Proof.
  intros I St. unfold r_label in St. destruct (r_crash s); [discriminate|]. destruct l as [g|g handles|g|m].
  - by eapply rinv_rstep.
  - destruct (r_st s g) as [|f st] eqn:E; [|discriminate].
    destruct (handles !! fst g) as [own_cs|] eqn:HG; [|injection St as <-; by apply rinv_crash].
    injection St as <-. eapply (rinv_step s _ g [_] I).
    + by apply ext_refl.
    + done.
    + intros f Hf. right. apply elem_of_list_singleton in Hf as ->. cbn [fok]. split; [done|].
      intros i cs Hi H. left. apply elem_of_seq. apply lookup_lt_Some in H. lia.
    + intros i H. rewrite E in H. by apply elem_of_nil in H.
    + intros i H. by left.
    + intros h i H. by left.
    + intros m i cs H. by left.
    + intros d H. by left.
  - destruct (r_st s g) as [|f st] eqn:E; [|discriminate]. injection St as <-.
    eapply (rinv_dequeue s g [] []); [done|exact E| |].
    + intros id H. by apply elem_of_nil in H.
    + exists []. split; [done|]. intros f H. by apply elem_of_nil in H.
  - destruct (r_st s (m, 0)) as [|f st] eqn:E; [|discriminate]. destruct (r_pend s m); [|discriminate].
    injection St as <-. eapply (rinv_remote_dequeue _ (m, 0) [] []); [by apply rinv_pend|exact E| |].
    + intros id H. by apply elem_of_nil in H.
    + exists []. split; [done|]. intros f H. by apply elem_of_nil in H.
Qed.
Lemma rinv_init : rinv r_init.
Proof. split; cbn; intros *; intros H; try (by apply elem_of_nil in H); intros; by apply elem_of_nil in H. Qed.
Lemma rinv_run cap rcap n nm tr : forall s, rinv s -> rinv (r_run cap rcap n nm s tr).
Proof.
  induction tr as [|l tr IH]; intros s I; [done|]. cbn [r_run]. apply IH.
  destruct (r_label cap rcap n nm s l) eqn:E; [|done]. by eapply rinv_label.
Qed.

(** ** A call alone can complete *)
Definition same (s s' : rst) (g : core) : Prop :=
  (forall h, h <> g -> r_st s' h = r_st s h) /\ (forall h, r_lq s' h = []) /\ (forall m, r_rq s' m = r_rq s m) /\
  r_crash s' = false /\ (forall m, r_pend s' m = r_pend s m) /\ r_done s' = r_done s /\
  (forall id, id ∈ r_ack s -> id ∈ r_ack s').
Lemma same_refl s g : (forall h, r_lq s h = []) -> r_crash s = false -> same s s g.
Proof. intros A B. unfold same. by repeat split. Qed.
Lemma same_trans s1 s2 s3 g : same s1 s2 g -> same s2 s3 g -> same s1 s3 g.
Proof.
  intros (A1 & A2 & A3 & A4 & A5 & A6 & A7) (B1 & B2 & B3 & B4 & B5 & B6 & B7). unfold same.
  split; [intros h H; rewrite B1 by done; by apply A1|]. split; [done|]. split; [intros m; by rewrite B3|].
  split; [done|]. split; [intros m; by rewrite B5|]. split; [by rewrite B6|]. auto.
Qed.
Lemma same_top s g st : (forall h, r_lq s h = []) -> r_crash s = false -> same s (w_top s g st) g.
Proof.
  intros A B. unfold same. split; [intros h H; cbn; by rewrite set_core_ne|]. by repeat split.
Qed.
Lemma run_app cap rcap n nm t1 : forall s t2, r_run cap rcap n nm s (t1 ++ t2) = r_run cap rcap n nm (r_run cap rcap n nm s t1) t2.
Proof. induction t1 as [|l t1 IH]; intros s t2; [done|]. cbn [app r_run]. apply IH. Qed.
Lemma run_one cap rcap n nm s l s' : r_label cap rcap n nm s l = Some s' -> r_run cap rcap n nm s [l] = s'.
Proof. intros E. cbn [r_run]. by rewrite E. Qed.
Lemma label_step cap rcap n nm s g : r_crash s = false -> r_label cap rcap n nm s (RStep g) = r_step cap rcap n nm s g.
Proof. intros E. unfold r_label. by rewrite E. Qed.

(** Serving the loop over local cores. *)
Lemma serve_enq cap rcap n nm g k goal start st : 1 <= cap -> forall todo s ids,
  r_st s g = FEnq k todo ids goal start :: st -> (forall h, r_lq s h = []) -> r_crash s = false ->
  (forall c, c ∈ todo -> c <> snd g -> c < n /\ r_st s (fst g, c) = []) ->
  (forall i, i ∈ ids -> i ∈ r_ack s) ->
  exists tr s', r_run cap rcap n nm s tr = s' /\ same s s' g /\ exists ids',
    r_st s' g = FEnq k [] ids' goal start :: st /\ (forall i, i ∈ ids' -> i ∈ r_ack s').
Proof.
  intros Cap. induction todo as [|c todo IH]; intros s ids E Q Cr Id Ak.
  - exists [], s. split; [done|]. split; [by apply same_refl|]. by exists ids.
  - destruct (decide (c = snd g)) as [C|C].
    + set (s1 := w_top s g (FEnq k todo ids goal start :: st)).
      assert (R1 : r_run cap rcap n nm s [RStep g] = s1).
      { apply run_one. rewrite label_step by done. unfold r_step. rewrite E.
        destruct (Nat.eqb_spec c (snd g)) as [_|Z]; [done|done]. }
      assert (S1 : same s s1 g) by (by apply same_top).
      destruct (IH s1 ids) as (tr & s' & R & S' & W).
      * unfold s1. cbn. by rewrite set_core_eq.
      * done.
      * done.
      * intros c' Hc Ne. destruct (Id c' ltac:(by right) Ne) as [L1 L2]. split; [done|].
        unfold s1. cbn. rewrite set_core_ne; [done|]. intros X. destruct g. cbn in *. congruence.
      * done.
      * exists ([RStep g] ++ tr), s'. split; [by rewrite run_app, R1|]. split; [by eapply same_trans|done].
    + destruct (Id c ltac:(by left) C) as [Cn Ci].
      assert (NE : (fst g, c) <> g) by (intros X; destruct g; cbn in *; congruence).
      set (id := length (r_tgt s)).
      set (s1 := w_top (w_lq (w_tgt s (r_tgt s ++ [TCore (fst g, c)])) (set_core (r_lq s) (fst g, c) [id])) g
                   (FEnq k todo (ids ++ [id]) goal start :: st)).
      assert (R1 : r_run cap rcap n nm s [RStep g] = s1).
      { apply run_one. rewrite label_step by done. unfold r_step. rewrite E.
        destruct (Nat.eqb_spec c (snd g)) as [Z|_]; [done|]. destruct (Nat.ltb_spec c n) as [_|Z]; [|lia]. cbn [negb].
        rewrite !Q. destruct (Nat.ltb_spec (@length nat []) cap) as [_|Z]; [done|cbn in Z; lia]. }
      set (s2 := w_top (w_ack (w_lq s1 (set_core (r_lq s1) (fst g, c) [])) (id :: r_ack s1)) (fst g, c) [FFlush id]).
      assert (R2 : r_run cap rcap n nm s1 [RIrq (fst g, c)] = s2).
      { apply run_one. unfold r_label. replace (r_crash s1) with false by (by cbn).
        replace (r_st s1 (fst g, c)) with (@nil frame) by (cbn; by rewrite set_core_ne).
        unfold r_dequeue. replace (r_lq s1 (fst g, c)) with [id] by (cbn; by rewrite set_core_eq). done. }
      set (s3 := w_top (w_flushed s2 (((fst g, c), id) :: r_flushed s2)) (fst g, c) []).
      assert (R3 : r_run cap rcap n nm s2 [RStep (fst g, c)] = s3).
      { apply run_one. rewrite label_step by (by cbn). unfold r_step.
        replace (r_st s2 (fst g, c)) with [FFlush id] by (cbn; by rewrite set_core_eq). done. }
      assert (S3 : same s s3 g).
      { unfold same. split; [|split; [|split; [done|split; [done|split; [done|split; [done|]]]]]].
        - intros h H. cbn. destruct (decide (h = (fst g, c))) as [->|Nh]; [by rewrite set_core_eq|].
          rewrite !set_core_ne by done. done.
        - intros h. cbn. destruct (decide (h = (fst g, c))) as [->|Nh]; [by rewrite set_core_eq|].
          rewrite !set_core_ne by done. done.
        - intros i Hi. cbn. by right. }
      destruct (IH s3 (ids ++ [id])) as (tr & s' & R & S' & W).
      * cbn. rewrite !set_core_ne by done. by rewrite set_core_eq.
      * apply S3.
      * done.
      * intros c' Hc Ne. destruct (Id c' ltac:(by right) Ne) as [L1 L2]. split; [done|].
        destruct S3 as (S3 & _). rewrite S3; [done|]. intros X. destruct g. cbn in *. congruence.
      * intros i Hi. apply elem_of_app in Hi as [Hi|Hi]; [right; by apply Ak|].
        apply elem_of_list_singleton in Hi as ->. by left.
      * exists ([RStep g] ++ [RIrq (fst g, c)] ++ [RStep (fst g, c)] ++ tr), s'.
        split; [by rewrite !run_app, R1, R2, R3|]. split; [by eapply same_trans|done].
Qed.
Lemma filter_acked (A ids : list nat) : (forall i, i ∈ ids -> i ∈ A) -> base.filter (fun x => x ∉ A) ids = [].
Proof.
  intros H. destruct (base.filter (fun x => x ∉ A) ids) as [|x l] eqn:E; [done|].
  assert (I : x ∈ base.filter (fun x => x ∉ A) ids) by (rewrite E; by left).
  apply elem_of_list_filter in I as [I1 I2]. by destruct (I1 (H x I2)).
Qed.
Lemma serve_local cap rcap n nm g k goal start st todo s ids : 1 <= cap ->
  r_st s g = FEnq k todo ids goal start :: st -> (forall h, r_lq s h = []) -> r_crash s = false ->
  (forall c, c ∈ todo -> c <> snd g -> c < n /\ r_st s (fst g, c) = []) ->
  (forall i, i ∈ ids -> i ∈ r_ack s) ->
  exists tr s', r_run cap rcap n nm s tr = s' /\ same s s' g /\ r_st s' g = FLoc k false [] goal start :: st.
Proof.
  intros Cap E Q Cr Id Ak.
  destruct (serve_enq cap rcap n nm g k goal start st Cap todo s ids E Q Cr Id Ak) as (tr & s1 & R1 & S1 & ids' & E1 & A1).
  destruct S1 as (S1a & S1b & S1c & S1d & S1e & S1f & S1g).
  assert (S1 : same s s1 g) by (by repeat split).
  set (id := length (r_tgt s1)).
  set (s2 := w_top (w_flushed (w_ack (w_tgt s1 (r_tgt s1 ++ [TCore g])) (id :: r_ack s1)) ((g, id) :: r_flushed s1)) g
               (FLoc k false ids' goal start :: st)).
  assert (R2 : r_run cap rcap n nm s1 [RStep g] = s2).
  { apply run_one. rewrite label_step by done. unfold r_step. by rewrite E1. }
  assert (S2 : same s s2 g).
  { eapply same_trans; [exact S1|]. unfold same. split; [intros h H; cbn; by rewrite set_core_ne|].
    split; [done|]. split; [done|]. split; [done|]. split; [done|]. split; [done|]. intros i Hi. by right. }
  destruct ids' as [|i0 ids'].
  - exists (tr ++ [RStep g]), s2. split; [by rewrite run_app, R1|]. split; [done|]. cbn. by rewrite set_core_eq.
  - set (s3 := w_top s2 g (FLoc k true (i0 :: ids') goal start :: st)).
    assert (R3 : r_run cap rcap n nm s2 [RStep g] = s3).
    { apply run_one. rewrite label_step by done. unfold r_step.
      replace (r_st s2 g) with (FLoc k false (i0 :: ids') goal start :: st) by (cbn; by rewrite set_core_eq).
      unfold r_dequeue. replace (r_lq s2 g) with (@nil nat) by (cbn; by rewrite S1b). done. }
    set (s4 := w_top s3 g (FLoc k false [] goal start :: st)).
    assert (R4 : r_run cap rcap n nm s3 [RStep g] = s4).
    { apply run_one. rewrite label_step by done. unfold r_step.
      replace (r_st s3 g) with (FLoc k true (i0 :: ids') goal start :: st) by (cbn; by rewrite set_core_eq).
      rewrite filter_acked; [done|]. intros i Hi. cbn. right. by apply A1. }
    exists (tr ++ [RStep g] ++ [RStep g] ++ [RStep g]), s4.
    split; [by rewrite !run_app, R1, R2, R3|]. split; [|cbn; by rewrite set_core_eq].
    eapply same_trans; [exact S2|]. eapply same_trans; apply same_top; done.
Qed.
(** The loop over machines. *)
Lemma serve_send cap rcap n nm g start handles : 1 <= cap -> 1 <= rcap -> forall todo s rids,
  r_st s g = [FSend None todo rids start handles] -> (forall h, h <> g -> r_st s h = []) ->
  (forall h, r_lq s h = []) -> (forall m, r_rq s m = []) -> r_crash s = false ->
  (forall i, i ∈ todo -> 1 <= i < nm /\ exists cs, handles !! i = Some cs /\ Forall (fun c => c < n) cs) ->
  (forall i, i ∈ rids -> i ∈ r_ack s) ->
  exists tr s', r_run cap rcap n nm s tr = s' /\ (forall h, h <> g -> r_st s' h = []) /\
    (forall h, r_lq s' h = []) /\ (forall m, r_rq s' m = []) /\ r_crash s' = false /\ r_done s' = r_done s /\
    exists rids', r_st s' g = [FSend None [] rids' start handles] /\ (forall i, i ∈ rids' -> i ∈ r_ack s').
Proof.
  intros Cap RCap. induction todo as [|i todo IH]; intros s rids E ST Q RQ Cr Ok Ak.
  - exists [], s. split; [done|]. repeat (split; [done|]). by exists rids.
  - destruct (Ok i ltac:(by left)) as (Hi & cs & HI & FC).
    destruct (decide (i = fst g \/ length cs = 0)) as [C|C].
    + set (s1 := w_top s g [FSend None todo rids start handles]).
      assert (R1 : r_run cap rcap n nm s [RStep g] = s1).
      { apply run_one. rewrite label_step by done. unfold r_step. rewrite E, HI.
        destruct (Nat.eqb_spec i (fst g)) as [_|Z]; [done|]. destruct (Nat.eqb_spec (length cs) 0) as [_|Z']; [done|].
        destruct C; done. }
      destruct (IH s1 rids) as (tr & s' & R & W).
      * cbn. by rewrite set_core_eq.
      * intros h H. cbn. rewrite set_core_ne by done. by apply ST.
      * done.
      * done.
      * done.
      * intros j Hj. apply Ok. by right.
      * done.
      * exists ([RStep g] ++ tr), s'. split; [by rewrite run_app, R1|exact W].
    + assert (NE : (i, 0) <> g) by (intros X; apply C; left; by rewrite <- X).
      set (id := length (r_tgt s)).
      set (s1 := w_top (w_rq (w_tgt s (r_tgt s ++ [TMach i cs])) (set_mach (r_rq s) i (r_rq s i ++ [(id, cs)]))) g
                   [FSend (Some i) todo (rids ++ [id]) start handles]).
      assert (R1 : r_run cap rcap n nm s [RStep g] = s1).
      { apply run_one. rewrite label_step by done. unfold r_step. rewrite E, HI.
        destruct (Nat.eqb_spec i (fst g)) as [Z|_]; [destruct C; by left|].
        destruct (Nat.eqb_spec (length cs) 0) as [Z|_]; [destruct C; by right|]. cbn [orb].
        destruct (Nat.ltb_spec i nm) as [_|Z]; [|lia]. cbn [negb].
        destruct (Nat.ltb_spec (length (r_rq s i)) rcap) as [_|Z]; [done|]. rewrite RQ in Z. cbn in Z. lia. }
      set (s2 := w_top (w_pend s1 (set_mach (r_pend s1) i true)) g [FSend None todo (rids ++ [id]) start handles]).
      assert (R2 : r_run cap rcap n nm s1 [RStep g] = s2).
      { apply run_one. rewrite label_step by done. unfold r_step.
        replace (r_st s1 g) with [FSend (Some i) todo (rids ++ [id]) start handles] by (cbn; by rewrite set_core_eq). done. }
      set (s2' := w_pend s2 (set_mach (r_pend s2) i false)).
      set (s3 := w_top (w_rq s2' (set_mach (r_rq s2') i [])) (i, 0) [FEnq (KAck id) cs [] cs (length (r_tgt s2'))]).
      assert (R3 : r_run cap rcap n nm s2 [RMsi i] = s3).
      { apply run_one. unfold r_label. replace (r_crash s2) with false by done.
        replace (r_st s2 (i, 0)) with (@nil frame).
        2:{ cbn. rewrite !set_core_ne by done. symmetry. by apply ST. }
        replace (r_pend s2 i) with true by (cbn; by rewrite set_mach_eq).
        fold s2'. unfold r_remote_dequeue. cbn [fst]. destruct (Nat.eqb_spec i 0) as [Z|_]; [lia|].
        replace (r_rq s2' i) with [(id, cs)]; [done|]. cbn. by rewrite set_mach_eq, RQ. }
      assert (STX : forall h, h <> g -> h <> (i, 0) -> r_st s3 h = []).
      { intros h H1 H2. cbn. rewrite !set_core_ne by done. by apply ST. }
      destruct (serve_local cap rcap n nm (i, 0) (KAck id) cs (length (r_tgt s2')) [] cs s3 []) as (tr4 & s4 & R4 & S4 & E4).
      { done. } { cbn. by rewrite set_core_eq. } { done. } { done. }
      { intros c Hc Ne. cbn [fst snd] in *. split; [by apply (proj1 (stdpp.list.Forall_forall _ _) FC)|].
        apply STX; [|congruence]. intros X. apply C. left. by rewrite <- X. }
      { intros x Hx. by apply elem_of_nil in Hx. }
      destruct S4 as (A1 & A2 & A3 & A4 & A5 & A6 & A7).
      set (s5 := w_top (w_ack s4 (id :: r_ack s4)) (i, 0) []).
      assert (R5 : r_run cap rcap n nm s4 [RStep (i, 0)] = s5).
      { apply run_one. rewrite label_step by done. unfold r_step. by rewrite E4. }
      destruct (IH s5 (rids ++ [id])) as (tr & s' & R & W).
      * cbn. rewrite set_core_ne by done. rewrite A1 by done. cbn. rewrite set_core_ne by done. by rewrite set_core_eq.
      * intros h H. cbn. destruct (decide (h = (i, 0))) as [->|Nh]; [by rewrite set_core_eq|].
        rewrite set_core_ne by done. rewrite A1 by done. by apply STX.
      * intros h. cbn. apply A2.
      * intros m. cbn. rewrite A3. cbn. destruct (decide (m = i)) as [->|Nm]; [by rewrite set_mach_eq|].
        rewrite !set_mach_ne by done. apply RQ.
      * done.
      * intros j Hj. apply Ok. by right.
      * intros x Hx. cbn. apply elem_of_app in Hx as [Hx|Hx]; [right; apply A7; by apply Ak|].
        apply elem_of_list_singleton in Hx as ->. by left.
      * exists ([RStep g] ++ [RStep g] ++ [RMsi i] ++ tr4 ++ [RStep (i, 0)] ++ tr), s'.
        split; [by rewrite !run_app, R1, R2, R3, R4, R5|].
        destruct W as (W1 & W2 & W3 & W4 & W5 & W6). repeat (split; [done|]). split; [|done].
        rewrite W5. cbn. rewrite A6. done.
Qed.
Lemma complete cap rcap n nm g handles s : 1 <= cap -> 1 <= rcap -> 1 <= fst g ->
  (forall h, r_st s h = []) -> (forall h, r_lq s h = []) -> (forall m, r_rq s m = []) -> r_crash s = false ->
  fst g < length handles <= nm -> Forall (fun cs => Forall (fun c => c < n) cs) handles ->
  exists tr s', r_run cap rcap n nm s (RCall g handles :: tr) = s' /\
    (g, handles, length (r_tgt s)) ∈ r_done s' /\ r_crash s' = false /\
    (forall h, r_st s' h = []) /\ (forall h, r_lq s' h = []) /\ (forall m, r_rq s' m = []).
Proof.
  intros Cap RCap G1 ST Q RQ Cr Len FH. set (start := length (r_tgt s)).
  destruct (lookup_lt_is_Some_2 handles (fst g)) as [own_cs HG]; [lia|].
  pose proof (proj1 (stdpp.list.Forall_lookup _ _) FH _ _ HG) as FG. cbn beta in FG.
  set (s0 := w_top s g [FSend None (seq 1 (length handles - 1)) [] start handles]).
  assert (R0 : r_run cap rcap n nm s [RCall g handles] = s0).
  { apply run_one. unfold r_label. rewrite Cr, ST, HG. done. }
  destruct (serve_send cap rcap n nm g start handles Cap RCap (seq 1 (length handles - 1)) s0 []) as
    (tr1 & s1 & R1 & A1 & A2 & A3 & A4 & A5 & rids & E1 & K1).
  { cbn. by rewrite set_core_eq. }
  { intros h H. cbn. rewrite set_core_ne by done. apply ST. }
  { done. } { done. } { done. }
  { intros i Hi. apply elem_of_seq in Hi. split; [lia|].
    destruct (lookup_lt_is_Some_2 handles i) as [cs H]; [lia|]. exists cs. split; [done|].
    exact (proj1 (stdpp.list.Forall_lookup _ _) FH _ _ H). }
  { intros i Hi. by apply elem_of_nil in Hi. }
  set (s2 := w_top s1 g [FEnq (KRem rids start handles) own_cs [] own_cs start]).
  assert (R2 : r_run cap rcap n nm s1 [RStep g] = s2).
  { apply run_one. rewrite label_step by done. unfold r_step. by rewrite E1, HG. }
  destruct (serve_local cap rcap n nm g (KRem rids start handles) own_cs start [] own_cs s2 []) as (tr3 & s3 & R3 & S3 & E3).
  { done. } { cbn. by rewrite set_core_eq. } { done. } { done. }
  { intros c Hc Ne. split; [by apply (proj1 (stdpp.list.Forall_forall _ _) FG)|].
    cbn. rewrite set_core_ne; [apply A1|]; intros X; destruct g; cbn in *; congruence. }
  { intros x Hx. by apply elem_of_nil in Hx. }
  destruct S3 as (B1 & B2 & B3 & B4 & B5 & B6 & B7).
  assert (BST : forall h, h <> g -> r_st s3 h = []).
  { intros h H. rewrite B1 by done. cbn. rewrite set_core_ne by done. by apply A1. }
  assert (BRQ : forall m, r_rq s3 m = []) by (intros m; rewrite B3; cbn; apply A3).
  set (s4 := w_top s3 g [FWait 0 rids start handles]).
  assert (R4 : r_run cap rcap n nm s3 [RStep g] = s4).
  { apply run_one. rewrite label_step by done. unfold r_step. by rewrite E3. }
  assert (FIN : forall t st0, r_st t g = [FWait 0 [] start handles] -> r_crash t = false ->
     st0 = w_top (w_done t ((g, handles, start) :: r_done t)) g [] -> r_run cap rcap n nm t [RStep g] = st0).
  { intros t st0 H1 H2 ->. apply run_one. rewrite label_step by done. unfold r_step. by rewrite H1. }
  destruct rids as [|r0 rids].
  - eexists (tr1 ++ [RStep g] ++ tr3 ++ [RStep g] ++ [RStep g]), _.
    split.
    + change (RCall g handles :: ?t) with ([RCall g handles] ++ t). rewrite !run_app, R0, R1, R2, R3, R4.
      apply FIN; [cbn; by rewrite set_core_eq|done|reflexivity].
    + cbn. split; [by left|]. split; [done|]. split; [|split; [apply B2|apply BRQ]].
      intros h. destruct (decide (h = g)) as [->|Nh]; [by rewrite set_core_eq|]. rewrite !set_core_ne by done. by apply BST.
  - set (s5 := w_top s4 g [FWait 1 (r0 :: rids) start handles]).
    assert (R5 : r_run cap rcap n nm s4 [RStep g] = s5).
    { apply run_one. rewrite label_step by done. unfold r_step.
      replace (r_st s4 g) with [FWait 0 (r0 :: rids) start handles] by (cbn; by rewrite set_core_eq).
      unfold r_dequeue. replace (r_lq s4 g) with (@nil nat) by (cbn; by rewrite B2). done. }
    set (s6 := w_top s5 g [FWait 2 (r0 :: rids) start handles]).
    assert (R6 : r_run cap rcap n nm s5 [RStep g] = s6).
    { apply run_one. rewrite label_step by done. unfold r_step.
      replace (r_st s5 g) with [FWait 1 (r0 :: rids) start handles] by (cbn; by rewrite set_core_eq).
      unfold r_remote_dequeue. destruct (Nat.eqb_spec (fst g) 0) as [Z|_]; [lia|].
      replace (r_rq s5 (fst g)) with (@nil (nat * list nat)) by (cbn; by rewrite BRQ). done. }
    set (s7 := w_top s6 g [FWait 0 [] start handles]).
    assert (R7 : r_run cap rcap n nm s6 [RStep g] = s7).
    { apply run_one. rewrite label_step by done. unfold r_step.
      replace (r_st s6 g) with [FWait 2 (r0 :: rids) start handles] by (cbn; by rewrite set_core_eq).
      rewrite filter_acked; [done|]. intros i Hi. cbn. apply B7. cbn. by apply K1. }
    eexists (tr1 ++ [RStep g] ++ tr3 ++ [RStep g] ++ [RStep g] ++ [RStep g] ++ [RStep g] ++ [RStep g]), _.
    split.
    + change (RCall g handles :: ?t) with ([RCall g handles] ++ t). rewrite !run_app, R0, R1, R2, R3, R4, R5, R6, R7.
      apply FIN; [cbn; by rewrite set_core_eq|done|reflexivity].
    + cbn. split; [by left|]. split; [done|]. split; [|split; [apply B2|apply BRQ]].
      intros h. destruct (decide (h = g)) as [->|Nh]; [by rewrite set_core_eq|]. rewrite !set_core_ne by done. by apply BST.
Qed.
