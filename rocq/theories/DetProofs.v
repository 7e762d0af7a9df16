(** Lemmas for C16. *)
From Verif Require Import Base DetModel.

Fixpoint sumn (f : nat -> nat) (n : nat) : nat :=
  match n with O => 0 | S m => sumn f m + f m end.
Lemma sumn_ext f g n : (forall k, k < n -> f k = g k) -> sumn f n = sumn g n.
Proof. induction n as [|n IH]; intros H; [done|]. cbn. rewrite IH; [|intros; apply H; lia]. rewrite H; lia. Qed.
Lemma sumn_upd f g n i : i < n -> (forall k, k < n -> k <> i -> f k = g k) ->
  sumn f n + g i = sumn g n + f i.
Proof.
  induction n as [|n IH]; intros Hi H; [lia|]. cbn. destruct (decide (i = n)) as [->|].
  - rewrite (sumn_ext f g n); [lia|]. intros k Hk. apply H; lia.
  - rewrite (H n) by lia. assert (sumn f n + g i = sumn g n + f i) by (apply IH; [lia|]; intros; apply H; lia). lia.
Qed.
Lemma sumn_ge f n k : k < n -> f k <= sumn f n.
Proof. induction n as [|n IH]; intros H; [lia|]. cbn. destruct (decide (k = n)) as [->|]; [lia|]. specialize (IH ltac:(lia)). lia. Qed.
Lemma sumn_two f n j k : j < n -> k < n -> j <> k -> f j + f k <= sumn f n.
Proof.
  induction n as [|n IH]; intros Hj Hk Hjk; [lia|]. cbn.
  destruct (decide (j = n)) as [->|]; [pose proof (sumn_ge f n k ltac:(lia)); lia|].
  destruct (decide (k = n)) as [->|]; [pose proof (sumn_ge f n j ltac:(lia)); lia|].
  specialize (IH ltac:(lia) ltac:(lia) Hjk). lia.
Qed.

(** Occurrences of a pointer. *)
Fixpoint cE (p : N) (l : list entry) : nat :=
  match l with [] => 0 | e :: l' => (if decide (e.2 = p) then 1 else 0) + cE p l' end.
Fixpoint cH (p : N) (l : list (nat * layout * N)) : nat :=
  match l with [] => 0 | e :: l' => (if decide (e.2 = p) then 1 else 0) + cH p l' end.
Lemma cE_app p l1 l2 : cE p (l1 ++ l2) = cE p l1 + cE p l2.
Proof. induction l1; cbn; lia. Qed.
Lemma cE_elem p l e : e ∈ l -> e.2 = p -> 1 <= cE p l.
Proof.
  induction l as [|x l IH]; intros He Hp; [by apply elem_of_nil in He|]. cbn.
  apply elem_of_cons in He as [->|He]; [rewrite decide_True by done; lia|]. specialize (IH He Hp). lia.
Qed.
Lemma cH_elem p l e : e ∈ l -> e.2 = p -> 1 <= cH p l.
Proof.
  induction l as [|x l IH]; intros He Hp; [by apply elem_of_nil in He|]. cbn.
  apply elem_of_cons in He as [->|He]; [rewrite decide_True by done; lia|]. specialize (IH He Hp). lia.
Qed.
Lemma cH_delete p l k e : l !! k = Some e -> cH p l = (if decide (e.2 = p) then 1 else 0) + cH p (delete k l).
Proof.
  revert k. induction l as [|x l IH]; intros [|k] H; try done.
  - by injection H as ->.
  - change (delete (S k) (x :: l)) with (x :: delete k l). cbn [cH]. rewrite (IH k H). lia.
Qed.

Definition col (i : nat) (A : list (layout * list N)) : list entry :=
  map (fun a => (a.1, nth i a.2 0%N)) A.

(** Entries the lock holder still owes to position [k]. *)
Definition pend (n : nat) (s : dstate) (k : nat) : list entry :=
  match d_lock s with
  | None => []
  | Some j => match d_pc s j with
              | PPush l ps _ m => if decide (k = j \/ m <= k) then [(l, nth k ps 0%N)] else []
              | _ => []
              end
  end.
Definition prog (n : nat) (s : dstate) (k : nat) : list entry :=
  match d_lock s with
  | None => []
  | Some j => match d_pc s j with
              | PFill l ps => match ps !! k with Some p => [(l, p)] | None => [] end
              | PPush l ps _ m => if decide (k = j \/ m <= k) then [(l, nth k ps 0%N)] else []
              | _ => []
              end
  end.
Definition total (n : nat) (s : dstate) (p : N) : nat :=
  cH p (d_held s) + sumn (fun k => cE p (d_qs s k ++ prog n s k)) n.

Definition pc_ok (n : nat) (reqs : nat -> layout) (s : dstate) (i : nat) : Prop :=
  match d_pc s i with
  | PIdle => d_lock s <> Some i
  | PLock l => d_lock s <> Some i /\ l = reqs (length (d_done s i))
  | PPop l => d_lock s = Some i /\ l = reqs (length (d_done s i))
  | PFill l ps => d_lock s = Some i /\ l = reqs (length (d_done s i)) /\ d_qs s i = [] /\
                  length ps <= n /\ Forall (fun p => p <> 0%N) ps
  | PPush l ps ok k => d_lock s = Some i /\ l = reqs (length (d_done s i)) /\ d_qs s i = [] /\
                  length ps = n /\ Forall (fun p => p <> 0%N) ps /\ ok = true /\ k <= n
  end.

Record dinv (n : nat) (reqs : nat -> layout) (A : list (layout * list N)) (s : dstate) : Prop := {
  iv_pc : forall i, pc_ok n reqs s i;
  iv_lock : forall j, d_lock s = Some j -> j < n;
  iv_A : forall k a, A !! k = Some a -> a.1 = reqs k /\ length a.2 = n /\ Forall (fun p => p <> 0%N) a.2;
  iv_col : forall i, i < n -> d_done s i ++ d_qs s i ++ pend n s i = col i A;
  iv_mem : forall p, p <> 0%N -> total n s p = if d_live s !! p then 1 else 0;
  iv_held : forall i l p, (i, l, p) ∈ d_held s -> p <> 0%N /\ d_live s !! p = Some (i, l);
  iv_own : forall k l p, k < n -> (l, p) ∈ d_qs s k ++ prog n s k -> p <> 0%N /\ d_live s !! p = Some (k, l) }.

Lemma dinv_init n reqs : dinv n reqs [] d_init.
Proof.
  split; cbn; try done.
  - intros p Hp. rewrite lookup_empty. unfold total, prog. cbn. induction n; cbn; lia.
  - intros i l p H. by apply elem_of_nil in H.
  - intros k l p _ H. unfold prog in H. cbn in H. by apply elem_of_nil in H.
Qed.

Ltac fn := rewrite ?fn_lookup_insert, ?fn_lookup_insert_ne by done.

Lemma prog_other n qs lk pcs dn lv hd cr i q qs' dn' lv' hd' cr' k :
  lk <> Some i ->
  prog n (mkD qs' lk (<[i:=q]> pcs) dn' lv' hd' cr') k = prog n (mkD qs lk pcs dn lv hd cr) k.
Proof.
  intros H. unfold prog. cbn. destruct lk as [j|]; [|done].
  rewrite fn_lookup_insert_ne; [done|]. congruence.
Qed.
Lemma pend_other n qs lk pcs dn lv hd cr i q qs' dn' lv' hd' cr' k :
  lk <> Some i ->
  pend n (mkD qs' lk (<[i:=q]> pcs) dn' lv' hd' cr') k = pend n (mkD qs lk pcs dn lv hd cr) k.
Proof.
  intros H. unfold pend. cbn. destruct lk as [j|]; [|done].
  rewrite fn_lookup_insert_ne; [done|]. congruence.
Qed.
(** Replicas other than [i] keep [pc_ok]. *)
Lemma pc_ok_other n reqs qs lk pcs dn lv hd cr i q lk' qs' x lv' hd' cr' j :
  j <> i -> pc_ok n reqs (mkD qs lk pcs dn lv hd cr) j ->
  (d_lock (mkD qs lk pcs dn lv hd cr) = Some j <-> lk' = Some j) ->
  (lk = Some j -> qs' j = qs j) ->
  pc_ok n reqs (mkD qs' lk' (<[i:=q]> pcs) (<[i:=x]> dn) lv' hd' cr') j.
Proof.
  intros Hj H Hl Hq. unfold pc_ok in *. cbn in *. rewrite !fn_lookup_insert_ne by done.
  destruct (pcs j); cbn in *; destruct_and?; split_and?; try done; try (by apply Hl);
    try (intros ?; by apply H, Hl); try (intros ?; by apply H0, Hl); try (by rewrite Hq by done).
Qed.
Lemma pc_ok_other' n reqs qs lk pcs dn lv hd cr i q lk' qs' lv' hd' cr' j :
  j <> i -> pc_ok n reqs (mkD qs lk pcs dn lv hd cr) j ->
  (d_lock (mkD qs lk pcs dn lv hd cr) = Some j <-> lk' = Some j) ->
  (lk = Some j -> qs' j = qs j) ->
  pc_ok n reqs (mkD qs' lk' (<[i:=q]> pcs) dn lv' hd' cr') j.
Proof.
  intros Hj H Hl Hq. unfold pc_ok in *. cbn in *. rewrite !fn_lookup_insert_ne by done.
  destruct (pcs j); cbn in *; destruct_and?; split_and?; try done; try (by apply Hl);
    try (intros ?; by apply H, Hl); try (intros ?; by apply H0, Hl); try (by rewrite Hq by done).
Qed.

Lemma nth_lookup_lt (ps : list N) k : k < length ps -> ps !! k = Some (nth k ps 0%N).
Proof. intros H. destruct (lookup_lt_is_Some_2 ps k H) as [x Hx]. rewrite Hx. f_equal. symmetry. by apply nth_lookup_Some. Qed.

(** Returning an entry taken from the front of the own queue. *)
Lemma inv_pop n reqs A s i l q rest lk' :
  dinv n reqs A s -> i < n -> d_qs s i = (l, q) :: rest ->
  (forall k, k < n -> prog n s k = []) \/ d_lock s <> Some i ->
  (lk' = d_lock s /\ d_lock s <> Some i) \/ (d_lock s = Some i /\ lk' = None /\ (forall k, prog n s k = []) /\ forall k, pend n s k = []) ->
  dinv n reqs A (d_return s i l q lk' (<[i := rest]> (d_qs s))) /\ l = reqs (length (d_done s i)).
Proof.
  intros [P L HA C M H O] Hi Hq _ Hlk. destruct s as [qs lk pcs dn lv hd cr]. cbn in *.
  unfold d_return. cbn.
  assert (Hown : q <> 0%N /\ lv !! q = Some (i, l)).
  { apply (O i l q Hi). rewrite Hq. set_solver. }
  destruct Hown as [Hq0 Hlv]. rewrite decide_False by done.
  assert (Hprog : forall k, prog n (mkD (<[i:=rest]> qs) lk' (<[i:=PIdle]> pcs) (<[i:=dn i ++ [(l,q)]]> dn) lv ((i,l,q)::hd) cr) k
     = prog n (mkD qs lk pcs dn lv hd cr) k).
  { intros k. destruct Hlk as [[-> Hl]|(-> & -> & Hp & _)]; [by apply prog_other|]. by rewrite Hp. }
  assert (Hpend : forall k, pend n (mkD (<[i:=rest]> qs) lk' (<[i:=PIdle]> pcs) (<[i:=dn i ++ [(l,q)]]> dn) lv ((i,l,q)::hd) cr) k
     = pend n (mkD qs lk pcs dn lv hd cr) k).
  { intros k. destruct Hlk as [[-> Hl]|(-> & -> & _ & Hp)]; [by apply pend_other|]. by rewrite Hp. }
  split.
  - split.
    + intros j. destruct (decide (j = i)) as [->|Hj].
      * unfold pc_ok. cbn. fn. destruct Hlk as [[-> Hl]|(_ & -> & _)]; done.
      * eapply pc_ok_other; [done|apply P| |].
        -- cbn. destruct Hlk as [[-> Hl]|(-> & -> & _)]; [done|]. split; [congruence|done].
        -- intros _. by fn.
    + cbn. intros j Hj. destruct Hlk as [[-> Hl]|(_ & -> & _)]; [by apply L|done].
    + done.
    + cbn. intros j Hj. rewrite Hpend. destruct (decide (j = i)) as [->|Hne].
      * fn. rewrite <- (C i Hi), Hq. by rewrite <- app_assoc.
      * fn. by apply C.
    + intros p Hp. cbn. rewrite <- (M p Hp). unfold total. cbn.
      match goal with |- context [sumn ?f n] => set (F := f) end.
      match goal with |- _ = _ + sumn ?g n => set (G := g) end.
      assert (sumn F n + G i = sumn G n + F i) as Hs.
      { apply sumn_upd; [done|]. intros k Hk Hki. subst F G. cbn. rewrite Hprog. by fn. }
      subst F G. cbn in Hs |- *. rewrite Hprog, Hq in Hs. revert Hs. fn. rewrite !cE_app. cbn. lia.
    + cbn. intros j l' p' Hin. apply elem_of_cons in Hin as [Hin|Hin]; [by simplify_eq|by apply H].
    + cbn. intros k l' p' Hk. rewrite Hprog. destruct (decide (k = i)) as [->|Hne].
      * fn. intros Hin. apply (O i l' p' Hi). rewrite Hq. set_solver.
      * fn. by apply O.
  - pose proof (C i Hi) as Hc. rewrite Hq in Hc.
    assert (col i A !! length (dn i) = Some (l, q)) as Hl.
    { rewrite <- Hc. by apply (list_lookup_middle (dn i)). }
    unfold col in Hl. rewrite list_lookup_fmap in Hl.
    destruct (A !! length (dn i)) as [a|] eqn:Ea; [|done]. cbn in Hl. injection Hl as <- <-.
    by apply (HA _ _ Ea).
Qed.

(** Transitions that only change the control state. *)
Lemma inv_goto n reqs A s i q lk' :
  dinv n reqs A s -> i < n ->
  (forall j, j <> i -> d_lock s = Some j <-> lk' = Some j) ->
  (lk' = Some i \/ lk' = d_lock s) ->
  pc_ok n reqs (d_goto s i q lk' (d_qs s) (d_live s)) i ->
  (forall k, k < n -> prog n (d_goto s i q lk' (d_qs s) (d_live s)) k = prog n s k) ->
  (forall k, k < n -> pend n (d_goto s i q lk' (d_qs s) (d_live s)) k = pend n s k) ->
  dinv n reqs A (d_goto s i q lk' (d_qs s) (d_live s)).
Proof.
  intros [P L HA C M H O] Hi Hlk Hlk2 Hpc Hprog Hpend. destruct s as [qs lk pcs dn lv hd cr]. cbn in *.
  split; auto.
  - intros j. destruct (decide (j = i)) as [->|Hj]; [done|].
    eapply pc_ok_other'; [done|apply P| |done]. cbn. by apply Hlk.
  - cbn. intros j Hj. destruct (decide (j = i)) as [->|]; [done|]. apply L. by apply Hlk.
  - intros j Hj. rewrite Hpend by done. by apply C.
  - intros p Hp. cbn. rewrite <- (M p Hp). unfold total. cbn. f_equal. apply sumn_ext. intros k Hk. by rewrite Hprog.
  - intros k l p Hk. rewrite Hprog by done. by apply O.
Qed.

Lemma pend_nil_PPop n s i l : d_lock s = Some i -> d_pc s i = PPop l -> forall k, pend n s k = [].
Proof. intros H1 H2 k. unfold pend. by rewrite H1, H2. Qed.
Lemma prog_nil_PPop n s i l : d_lock s = Some i -> d_pc s i = PPop l -> forall k, prog n s k = [].
Proof. intros H1 H2 k. unfold prog. by rewrite H1, H2. Qed.

(** Number of completed fills when the lock holder's queue is empty. *)
Lemma lenA n reqs A s i : dinv n reqs A s -> i < n -> d_qs s i = [] -> pend n s i = [] ->
  length A = length (d_done s i).
Proof.
  intros HI Hi Hq Hp. pose proof (iv_col _ _ _ _ HI i Hi) as Hc. rewrite Hq, Hp in Hc.
  rewrite !app_nil_r in Hc. apply (f_equal length) in Hc. unfold col in Hc. rewrite map_length in Hc. done.
Qed.

Lemma forallb_nonzero ps : Forall (fun p => p <> 0%N) ps -> forallb (fun q => negb (q =? 0)%N) ps = true.
Proof.
  induction 1 as [|p ps Hp _ IH]; [done|]. cbn. rewrite IH. rewrite (proj2 (N.eqb_neq p 0)) by done. done.
Qed.

Lemma inv_step n cap reqs A s i p s' :
  dinv n reqs A s -> i < n -> p <> 0%N -> d_step n cap reqs s i p = Some s' ->
  (d_crash s' = true /\ s' = d_panic s /\ exists k, k < n /\ length (d_qs s k) >= cap) \/
  (d_crash s' = d_crash s /\ exists A', dinv n reqs A' s').
Proof.
  intros HI Hi Hp E. unfold d_step in E. destruct (d_crash s) eqn:Ecr; [done|].
  pose proof (iv_pc _ _ _ _ HI i) as Hpc. unfold pc_ok in Hpc.
  destruct (d_pc s i) as [|l|l|l ps|l ps ok k] eqn:Ei.
  - (* PIdle *) destruct (d_qs s i) as [|[rl q] rest] eqn:Eq.
    + injection E as <-. right. split; [done|]. exists A. apply inv_goto; auto.
      * unfold pc_ok. cbn. by fn.
      * intros k Hk. destruct s. by apply prog_other.
      * intros k Hk. destruct s. by apply pend_other.
    + destruct (inv_pop n reqs A s i rl q rest (d_lock s) HI Hi Eq) as [Hn Hl]; [auto|auto|].
      rewrite decide_True in E by done. injection E as <-. right. split; [done|].
      rewrite <- Hl. eauto.
  - (* PLock *) destruct Hpc as [Hpc ->]. destruct (d_lock s) as [j|] eqn:Elk; [done|].
    injection E as <-. right. split; [done|]. exists A. apply inv_goto; auto.
    + intros j Hj. rewrite Elk. split; [done|congruence].
    + unfold pc_ok. cbn. by fn.
    + intros k Hk. unfold prog. cbn. fn. by rewrite Elk.
    + intros k Hk. unfold pend. cbn. fn. by rewrite Elk.
  - (* PPop *) destruct Hpc as [Hlk ->].
    pose proof (pend_nil_PPop n _ _ _ Hlk Ei) as Hpd. pose proof (prog_nil_PPop n _ _ _ Hlk Ei) as Hpg.
    destruct (d_qs s i) as [|[rl q] rest] eqn:Eq.
    + injection E as <-. right. split; [done|]. exists A. apply inv_goto; auto.
      * unfold pc_ok. cbn. fn. split_and!; auto; cbn; lia.
      * intros k Hk. unfold prog at 1. cbn. rewrite Hlk. fn. by rewrite Hpg.
      * intros k Hk. unfold pend at 1. cbn. rewrite Hlk. fn. by rewrite Hpd.
    + destruct (inv_pop n reqs A s i rl q rest None HI Hi Eq) as [Hn Hl]; [auto|right; auto|].
      rewrite decide_True in E by done. injection E as <-. right. split; [done|].
      rewrite <- Hl. eauto.
  - (* PFill *) destruct Hpc as (Hlk & -> & Hq & Hlen & Hnz).
    case_decide as Hlt.
    + rewrite decide_False in E by done. destruct (d_live s !! p) as [x|] eqn:Elv; [done|].
      injection E as <-. right. split; [done|]. exists A.
      set (l := reqs (length (d_done s i))).
      assert (Hprog : forall k, k <> length ps ->
        prog n (d_goto s i (PFill l (ps ++ [p])) (d_lock s) (d_qs s) (<[p := (length ps, l)]> (d_live s))) k = prog n s k).
      { intros k Hk. unfold prog. cbn. rewrite Hlk. fn. rewrite Ei. fold l.
        destruct (decide (k < length ps)).
        - by rewrite lookup_app_l by done.
        - rewrite lookup_ge_None_2; [|rewrite app_length; cbn; lia].
          by rewrite (lookup_ge_None_2 ps) by lia. }
      assert (Hprog2 : prog n (d_goto s i (PFill l (ps ++ [p])) (d_lock s) (d_qs s) (<[p := (length ps, l)]> (d_live s))) (length ps) = [(l, p)]).
      { unfold prog. cbn. rewrite Hlk. fn. rewrite lookup_app_r by lia. by rewrite Nat.sub_diag. }
      assert (Hprog3 : prog n s (length ps) = []).
      { unfold prog. rewrite Hlk, Ei. by rewrite lookup_ge_None_2. }
      pose proof (iv_mem _ _ _ _ HI p Hp) as Hmp. rewrite Elv in Hmp.
      assert (Hlive : forall q, q <> p -> <[p := (length ps, l)]> (d_live s) !! q = d_live s !! q).
      { intros q Hqp. by rewrite lookup_insert_ne. }
      destruct HI as [P L HA C M H O]. split.
      * intros j. destruct (decide (j = i)) as [->|Hj].
        -- unfold pc_ok. cbn. fn. rewrite app_length. cbn. split_and!; auto; [lia|].
           apply Forall_app. split; [done|]. by constructor.
        -- destruct s. eapply pc_ok_other'; [done|apply P|done|done].
      * cbn. intros j Hj. by apply L.
      * done.
      * cbn. intros j Hj. rewrite <- (C j Hj). do 2 f_equal. unfold pend. cbn. rewrite Hlk. fn. by rewrite Ei.
      * intros q Hq0. unfold total. cbn.
        match goal with |- context [sumn ?f n] => set (F := f) end.
        pose proof (M q Hq0) as Hm. unfold total in Hm.
        match type of Hm with context [sumn ?g n] => set (G := g) in * end.
        assert (sumn F n + G (length ps) = sumn G n + F (length ps)) as Hs.
        { apply sumn_upd; [done|]. intros k Hk Hki. subst F G. cbn. by rewrite Hprog. }
        subst F G. cbn in Hs |- *. rewrite Hprog2, Hprog3, !cE_app in Hs. cbn in Hs.
        destruct (decide (p = q)) as [->|Hne].
        -- rewrite lookup_insert. rewrite Elv in Hm. cbn in Hs. lia.
        -- rewrite Hlive by done. cbn in Hs. lia.
      * cbn. intros j l' p' Hin. destruct (H j l' p' Hin) as [Hz Hl]. split; [done|].
        rewrite Hlive; [done|]. intros ->. by rewrite Elv in Hl.
      * intros k l' p' Hk Hin. cbn in Hin |- *.
        destruct (decide (k = length ps)) as [->|Hne].
        -- rewrite Hprog2 in Hin. apply elem_of_app in Hin as [Hin|Hin].
           ++ destruct (O (length ps) l' p' Hk) as [Hz Hl]; [set_solver|]. split; [done|].
              rewrite Hlive; [done|]. intros ->. by rewrite Elv in Hl.
           ++ apply elem_of_list_singleton in Hin. injection Hin as -> ->. split; [done|]. by rewrite lookup_insert.
        -- rewrite Hprog in Hin by done. destruct (O k l' p' Hk Hin) as [Hz Hl]. split; [done|].
           rewrite Hlive; [done|]. intros ->. by rewrite Elv in Hl.
    + injection E as <-. right. split; [done|].
      assert (length ps = n) as Hn by lia.
      rewrite forallb_nonzero by done.
      set (l := reqs (length (d_done s i))).
      assert (Hpd : forall k, pend n s k = []) by (intros k; unfold pend; by rewrite Hlk, Ei).
      pose proof (lenA n reqs A s i HI Hi Hq (Hpd i)) as HlA.
      exists (A ++ [(l, ps)]).
      assert (Hprog : forall k, k < n ->
        prog n (d_goto s i (PPush l ps true 0) (d_lock s) (d_qs s) (d_live s)) k = prog n s k).
      { intros k Hk. unfold prog. cbn. rewrite Hlk. fn. rewrite Ei. rewrite decide_True by lia.
        by rewrite nth_lookup_lt by lia. }
      destruct HI as [P L HA C M H O]. split; auto.
      * intros j. destruct (decide (j = i)) as [->|Hj].
        -- unfold pc_ok. cbn. fn. split_and!; auto; lia.
        -- destruct s. eapply pc_ok_other'; [done|apply P|done|done].
      * intros k a Ha. destruct (decide (k < length A)).
        -- rewrite lookup_app_l in Ha by done. by apply HA.
        -- rewrite lookup_app_r in Ha by lia. apply list_lookup_singleton_Some in Ha as [Hk <-].
           cbn. replace k with (length A) by lia. rewrite HlA. by split_and!.
      * cbn. intros j Hj. unfold col. rewrite map_app. fold (col j A). rewrite <- (C j Hj), Hpd.
        rewrite app_nil_r, <- app_assoc. do 2 f_equal. unfold pend. cbn. rewrite Hlk. fn. by rewrite decide_True by lia.
      * intros q Hq0. cbn. rewrite <- (M q Hq0). unfold total. cbn. f_equal. apply sumn_ext. intros k Hk. by rewrite Hprog.
      * intros k l' p' Hk. rewrite Hprog by done. by apply O.
  - (* PPush *) destruct Hpc as (Hlk & -> & Hq & Hlen & Hnz & -> & Hkn).
    set (l := reqs (length (d_done s i))) in *.
    case_decide as Hk.
    + case_decide as Hki.
      * injection E as <-. subst k. right. split; [done|]. exists A.
        apply inv_goto; auto.
        -- unfold pc_ok. cbn. fn. split_and!; auto; lia.
        -- intros k Hk'. unfold prog. cbn. rewrite Hlk. fn. rewrite Ei. repeat case_decide; try done; lia.
        -- intros k Hk'. unfold pend. cbn. rewrite Hlk. fn. rewrite Ei. repeat case_decide; try done; lia.
      * case_decide as Hc; [|injection E as <-; left; split; [done|]; split; [done|]; exists k; split; [done|]; cbn; lia].
        injection E as <-. right. split; [done|]. exists A.
        set (s' := d_goto _ _ _ _ _ _).
        assert (Hprog : forall j, d_qs s' j ++ prog n s' j = d_qs s j ++ prog n s j).
        { intros j. subst s'. unfold prog. cbn. rewrite Hlk. fn. rewrite Ei. fold l.
          destruct (decide (j = k)) as [->|Hjk].
          - fn. rewrite decide_False by lia. rewrite decide_True by lia. by rewrite app_nil_r.
          - fn. repeat case_decide; try done; lia. }
        assert (Hpend : forall j, d_qs s' j ++ pend n s' j = d_qs s j ++ pend n s j).
        { intros j. subst s'. unfold pend. cbn. rewrite Hlk. fn. rewrite Ei. fold l.
          destruct (decide (j = k)) as [->|Hjk].
          - fn. rewrite decide_False by lia. rewrite decide_True by lia. by rewrite app_nil_r.
          - fn. repeat case_decide; try done; lia. }
        destruct HI as [P L HA C M H O]. split; auto.
        -- intros j. destruct (decide (j = i)) as [->|Hj].
           ++ unfold pc_ok. subst s'. cbn. fn. split_and!; auto; lia.
           ++ subst s'. destruct s. eapply pc_ok_other'; [done|apply P|done|].
              cbn in *. intros Hl. congruence.
        -- intros j Hj. rewrite Hpend. by apply C.
        -- intros q Hq0. change (d_live s') with (d_live s). rewrite <- (M q Hq0). unfold total. change (d_held s') with (d_held s). f_equal.
           apply sumn_ext. intros j Hj. by rewrite Hprog.
        -- intros j l' p' Hj. rewrite Hprog. by apply O.
    + injection E as <-. assert (k = n) as -> by lia. right. split; [done|]. exists A.
      set (q := nth i ps 0%N).
      assert (Hq0 : q <> 0%N).
      { apply (Forall_lookup_1 (fun p => p <> 0%N) ps i); [done|]. apply nth_lookup_lt. lia. }
      unfold d_return. rewrite decide_False by done.
      set (s' := mkD _ _ _ _ _ _ _).
      assert (Hprog : forall j, j < n -> prog n s' j = [] /\ (j <> i -> prog n s j = [])).
      { intros j Hj. split; [done|]. intros Hji. unfold prog. rewrite Hlk, Ei. by rewrite decide_False by lia. }
      assert (Hpi : prog n s i = [(l, q)]).
      { unfold prog. rewrite Hlk, Ei. by rewrite decide_True by auto. }
      assert (Hpend : forall j, j < n -> pend n s' j = [] /\ (j <> i -> pend n s j = [])).
      { intros j Hj. split; [done|]. intros Hji. unfold pend. rewrite Hlk, Ei. by rewrite decide_False by lia. }
      assert (Hpdi : pend n s i = [(l, q)]).
      { unfold pend. rewrite Hlk, Ei. by rewrite decide_True by auto. }
      destruct HI as [P L HA C M H O]. split; auto.
      * intros j. destruct (decide (j = i)) as [->|Hj].
        -- unfold pc_ok. subst s'. cbn. by fn.
        -- subst s'. destruct s. eapply pc_ok_other; [done|apply P| |done].
           cbn in *. rewrite Hlk. split; [congruence|done].
      * done.
      * intros j Hj. destruct (Hpend j Hj) as [-> Hpj]. rewrite <- (C j Hj).
        subst s'. cbn. destruct (decide (j = i)) as [->|Hji].
        -- fn. rewrite Hq, Hpdi. by rewrite app_nil_r.
        -- fn. by rewrite Hpj.
      * intros r Hr. change (d_live s') with (d_live s). rewrite <- (M r Hr). unfold total.
        assert (sumn (fun k => cE r (d_qs s' k ++ prog n s' k)) n + cE r (d_qs s i ++ prog n s i)
              = sumn (fun k => cE r (d_qs s k ++ prog n s k)) n + cE r (d_qs s' i ++ prog n s' i)) as Hs.
        { apply (sumn_upd (fun k => cE r (d_qs s' k ++ prog n s' k)) (fun k => cE r (d_qs s k ++ prog n s k))); [done|].
          intros j Hj Hji. destruct (Hprog j Hj) as [-> Hpj]. by rewrite Hpj. }
        destruct (Hprog i Hi) as [Hpi' _]. rewrite Hpi', Hpi, !cE_app in Hs.
        change (d_qs s' i) with (d_qs s i) in Hs. change (d_held s') with ((i, l, q) :: d_held s).
        cbn [cE cH snd] in *. lia.
      * intros j l' p' Hin. subst s'. cbn in *. apply elem_of_cons in Hin as [Hin|Hin]; [|by apply H].
        simplify_eq. apply (O i l q Hi). rewrite Hpi. set_solver.
      * intros j l' p' Hj Hin. destruct (Hprog j Hj) as [Hpj _]. rewrite Hpj in Hin.
        apply (O j l' p' Hj). subst s'. cbn in *. set_solver.
Qed.

Lemma inv_free n reqs A s i l p s' :
  dinv n reqs A s -> d_free s i l p = Some s' -> dinv n reqs A s' /\ d_crash s' = false.
Proof.
  intros HI E. unfold d_free in E. destruct (d_crash s) eqn:Ecr; [done|].
  destruct (list_find _ (d_held s)) as [[k h]|] eqn:Ef; [|done]. injection E as <-.
  apply list_find_Some in Ef as (Hk & -> & _). split; [|done].
  destruct HI as [P L HA C M H O].
  assert (Hin : (i, l, p) ∈ d_held s) by (by eapply elem_of_list_lookup_2).
  destruct (H i l p Hin) as [Hp0 Hlv].
  set (s' := mkD _ _ _ _ _ _ _).
  assert (Hpg : forall j, prog n s' j = prog n s j) by done.
  assert (Hpd : forall j, pend n s' j = pend n s j) by done.
  pose proof (M p Hp0) as Hm. rewrite Hlv in Hm. unfold total in Hm.
  rewrite (cH_delete p _ _ _ Hk) in Hm. cbn in Hm. rewrite decide_True in Hm by done.
  split; auto.
  - intros q Hq0. unfold total. cbn. pose proof (M q Hq0) as Hmq. unfold total in Hmq.
    rewrite (cH_delete q _ _ _ Hk) in Hmq. cbn in Hmq.
    rewrite (sumn_ext _ (fun k => cE q (d_qs s k ++ prog n s k))); [|done].
    destruct (decide (p = q)) as [->|Hne].
    + rewrite lookup_delete. lia.
    + rewrite lookup_delete_ne by done. lia.
  - subst s'. cbn. intros j l' q Hq.
    assert (Hq' : (j, l', q) ∈ d_held s).
    { apply elem_of_list_lookup in Hq as [m Hm']. destruct (decide (m < k)).
      - rewrite lookup_delete_lt in Hm' by lia. by eapply elem_of_list_lookup_2.
      - rewrite lookup_delete_ge in Hm' by lia. by eapply elem_of_list_lookup_2. }
    destruct (H j l' q Hq') as [Hz Hl]. split; [done|]. rewrite lookup_delete_ne; [done|].
    intros ->. assert (1 <= cH q (delete k (d_held s))) by (by eapply cH_elem). lia.
  - intros j l' q Hj. rewrite Hpg. intros Hq. destruct (O j l' q Hj Hq) as [Hz Hl]. split; [done|].
    subst s'. cbn. rewrite lookup_delete_ne; [done|]. intros ->.
    assert (1 <= cE q (d_qs s j ++ prog n s j)) by (by eapply cE_elem).
    pose proof (sumn_ge (fun k => cE q (d_qs s k ++ prog n s k)) n j Hj) as Hge. cbn in Hge. lia.
Qed.

Definition never_null (a : dlabel) : Prop := match a with DRun _ p => p <> 0%N | _ => True end.

Lemma d_label_crashed n cap reqs s a : d_crash s = true -> d_label n cap reqs s a = None.
Proof. intros H. destruct a; cbn; unfold d_step, d_free; rewrite H; [by case_decide|done]. Qed.

Lemma inv_run n cap reqs tr : forall A s s',
  dinv n reqs A s -> Forall never_null tr -> d_run n cap reqs s tr = Some s' ->
  exists A', (dinv n reqs A' s' /\ d_crash s' = d_crash s) \/
   (exists s1, dinv n reqs A' s1 /\ s' = d_panic s1 /\ exists k, k < n /\ length (d_qs s1 k) >= cap).
Proof.
  induction tr as [|a tr IH]; intros A s s' HI Hn E; cbn in E.
  { injection E as <-. eauto. }
  inversion Hn as [|? ? Ha Hn']; subst.
  destruct (d_label n cap reqs s a) as [s1|] eqn:Es; [|done].
  destruct a as [i p|i l p]; cbn in Es.
  - case_decide as Hi; [|done].
    destruct (inv_step n cap reqs A s i p s1 HI Hi Ha Es) as [(Hc & -> & Hk)|(Hc & A' & HI')].
    + destruct tr as [|a tr]; cbn in E.
      * injection E as <-. exists A. right. eauto.
      * by rewrite d_label_crashed in E.
    + rewrite <- Hc. by eapply IH.
  - destruct (inv_free n reqs A s i l p s1 HI Es) as [HI' Hc].
    destruct (IH _ _ _ HI' Hn' E) as (A' & [[H1 H2]|H]); eauto.
    exists A'. left. split; [done|]. rewrite H2, Hc. unfold d_free in Es. by destruct (d_crash s).
Qed.
