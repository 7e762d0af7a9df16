(** C34, specification and invariant of the user-level mutex. *)
From Verif Require Import Base CntLib MtxModel.

(** ** Specification: a lock as a client sees it *)

(** Who has the lock after a history of calls and returns. *)
Inductive lockst := Free | HeldBy (i : nat) | Broken.
#[export] Instance lockst_eq_dec : EqDecision lockst.
Proof. solve_decision. Defined.
Definition lk_step (st : lockst) (e : mev) : lockst :=
  match e, st with
  | EvAcq i, Free => HeldBy i
  | EvRel _, HeldBy _ => Free
  | EvAcq _, _ | EvRel _, _ => Broken
  | _, _ => st
  end.
Definition lk (tr : list mev) : lockst := foldl lk_step Free tr.

(** The order in which threads were put on the wait list and were handed the lock. *)
Definition queued (tr : list mev) : list nat :=
  omap (fun e => match e with EvQueue i => Some i | _ => None end) tr.
Definition granted (tr : list mev) : list nat :=
  omap (fun e => match e with EvGrant i => Some i | _ => None end) tr.

(** All calls in an execution meet a condition. *)
Fixpoint sched_ok (P : mst -> nat -> mact -> Prop) (f : mflags) (s : mst) (l : list (nat * mact)) : Prop :=
  match l with
  | [] => True
  | (i, a) :: l => P s i a /\ forall s', m_step f s i a = Some s' -> sched_ok P f s' l
  end.
(** exit is called only while the lock is held, by whichever thread. *)
Definition exit_held (s : mst) (i : nat) (a : mact) : Prop :=
  a = AExit -> exists j, lk (m_tr s) = HeldBy j.
(** A thread exits only if it holds the lock itself, and enters only if it does not. *)
Definition own_use (s : mst) (i : nat) (a : mact) : Prop :=
  match a with
  | AExit => lk (m_tr s) = HeldBy i
  | AGo => True
  | _ => lk (m_tr s) <> HeldBy i
  end.

(** ** Invariant *)

Definition own_pc (p : mpc) : bool := match p with MOwn | MTOwn | MX0 | MX1 => true | _ => false end.
Definition hand_pc (p : mpc) : bool := match p with MX2 | MX3 _ => true | _ => false end.
Definition wait_pc (p : mpc) : bool := match p with ME1 | ME2 | MFull => true | _ => false end.
Definition x3_pc (j : nat) (p : mpc) : bool := match p with MX3 k => Nat.eqb j k | _ => false end.
Definition heldn (s : mst) : nat := match lk (m_tr s) with HeldBy _ => 1 | _ => 0 end.
Definition x3s (th : list mpc) : list nat := omap (fun p => match p with MX3 j => Some j | _ => None end) th.
Definition blocked (th : list mpc) (i : nat) : nat :=
  match th !! i with Some ME2 => 1 | _ => 0 end.

Record minv (s : mst) : Prop := {
  mi_nb : lk (m_tr s) <> Broken;
  mi_c : m_c s = cnt own_pc (m_th s) + heldn s + cnt wait_pc (m_th s);
  mi_one : cnt own_pc (m_th s) + heldn s + cnt hand_pc (m_th s) + length (m_run s) <= 1;
  mi_wait : 0 < cnt wait_pc (m_th s) ->
            cnt own_pc (m_th s) + heldn s + cnt hand_pc (m_th s) + length (m_run s) = 1;
  mi_hand : 0 < cnt hand_pc (m_th s) + length (m_run s) -> 0 < cnt wait_pc (m_th s);
  mi_occ : forall i, occ i (m_q s) + occ i (m_run s) + cnt (x3_pc i) (m_th s) = blocked (m_th s) i;
  mi_fifo : queued (m_tr s) = granted (m_tr s) ++ x3s (m_th s) ++ m_q s;
  mi_owner : forall i, lk (m_tr s) = HeldBy i -> m_own s = Some i;
  mi_owner' : forall i, m_own s = Some i ->
              lk (m_tr s) = HeldBy i \/ exists j, m_th s !! j = Some MX0 }.

Lemma lk_app tr e : lk (tr ++ [e]) = lk_step (lk tr) e.
Proof. unfold lk. by rewrite foldl_app. Qed.
Lemma queued_app tr e : queued (tr ++ [e]) = queued tr ++ match e with EvQueue i => [i] | _ => [] end.
Proof. unfold queued. rewrite omap_app. by destruct e. Qed.
Lemma granted_app tr e : granted (tr ++ [e]) = granted tr ++ match e with EvGrant i => [i] | _ => [] end.
Proof. unfold granted. rewrite omap_app. by destruct e. Qed.

Lemma run_take_Some i l l' : run_take i l = Some l' ->
  length l = S (length l') /\ forall j, occ j l = occ j l' + Nat.b2n (Nat.eqb j i).
Proof.
  revert l'. induction l as [|x l IH]; intros l' H; simpl in H; [done|].
  destruct (decide (x = i)) as [->|Hn].
  - injection H as <-. split; [done|]. intros j. unfold occ. simpl. lia.
  - destruct (run_take i l) as [l1|] eqn:E; [|done]. injection H as <-.
    destruct (IH l1 eq_refl) as [H1 H2]. split; [simpl; lia|].
    intros j. specialize (H2 j). unfold occ in *. simpl. lia.
Qed.
Lemma run_take_in i l : i ∈ l -> exists l', run_take i l = Some l'.
Proof.
  induction l as [|x l IH]; [by intros ?%elem_of_nil|]. simpl.
  destruct (decide (x = i)) as [->|Hn]; [eauto|].
  intros [|H]%elem_of_cons; [done|]. destruct (IH H) as [l' ->]. simpl. eauto.
Qed.
Lemma run_take_None i l : run_take i l = None -> i ∉ l.
Proof. intros H Hi. destruct (run_take_in _ _ Hi) as [l' E]. congruence. Qed.

Lemma x3s_nil th : cnt hand_pc th = 0 -> x3s th = [].
Proof.
  induction th as [|p th IH]; simpl; [done|]. unfold x3s in *. simpl.
  destruct p; simpl; try (intros H; apply IH; lia); lia.
Qed.
Lemma x3s_insert_other th i p q : th !! i = Some p ->
  (match p with MX3 _ => false | _ => true end) = true ->
  (match q with MX3 _ => false | _ => true end) = true -> x3s (<[i := q]> th) = x3s th.
Proof.
  revert i. induction th as [|z th IH]; intros i H Hp Hq; [done|].
  destruct i as [|i]; simpl in *.
  - injection H as ->. unfold x3s. simpl. destruct p, q; done.
  - unfold x3s in *. simpl. specialize (IH i H Hp Hq). destruct z; simpl; by rewrite IH.
Qed.
Lemma x3s_insert_new th i j : i < length th -> cnt hand_pc th = Nat.b2n (hand_pc (default MIdle (th !! i))) ->
  x3s (<[i := MX3 j]> th) = [j].
Proof.
  revert i. induction th as [|z th IH]; intros i Hl H; [simpl in Hl; lia|].
  destruct i as [|i]; simpl in *.
  - assert (cnt hand_pc th = 0) by (destruct (hand_pc z); simpl in *; lia).
    unfold x3s. simpl. f_equal. by apply x3s_nil.
  - assert (E1 : hand_pc z = false /\ cnt hand_pc th = Nat.b2n (hand_pc (default MIdle (th !! i)))).
    { destruct (hand_pc z) eqn:Ez; simpl in *; [|done].
      destruct (th !! i) as [p|] eqn:Ei; [|apply lookup_ge_None in Ei; lia].
      simpl in *. destruct (hand_pc p) eqn:Ep; simpl in *; [|lia].
      pose proof (cnt_pos hand_pc th i p Ei Ep). lia. }
    destruct E1 as [Ez Ec]. unfold x3s in *. simpl. specialize (IH i ltac:(lia) Ec).
    destruct z; try done; simpl; by rewrite IH.
Qed.
Lemma x3s_old th i j : th !! i = Some (MX3 j) -> cnt hand_pc th = 1 -> x3s th = [j].
Proof.
  intros H1 H2. rewrite <- (list_insert_id th i (MX3 j) H1).
  apply x3s_insert_new; [by eapply lookup_lt_Some|]. by rewrite H1.
Qed.

Lemma x3s_nil' th i : th !! i = Some MX2 -> cnt hand_pc th = 1 -> x3s th = [].
Proof.
  revert i. induction th as [|z th IH]; intros i H Hc; [done|].
  destruct i as [|i]; simpl in *.
  - injection H as ->. simpl in Hc. unfold x3s. simpl. apply x3s_nil. lia.
  - pose proof (cnt_pos hand_pc th i _ H eq_refl).
    destruct (hand_pc z) eqn:Ez; [simpl in Hc; lia|]. simpl in Hc.
    unfold x3s in *. simpl. destruct z; try done; by eapply IH.
Qed.

Lemma blocked_insert th i p j : i < length th ->
  blocked (<[i := p]> th) j = if decide (j = i) then (match p with ME2 => 1 | _ => 0 end) else blocked th j.
Proof.
  intros H. unfold blocked. destruct (decide (j = i)) as [->|Hn].
  - by rewrite list_lookup_insert.
  - by rewrite list_lookup_insert_ne by done.
Qed.

Lemma minv_init n : minv (m_init n).
Proof.
  assert (Z : forall P, P MIdle = false -> cnt P (replicate n MIdle) = 0).
  { intros P H. rewrite cnt_replicate, H. simpl. lia. }
  split; unfold m_init; cbn [m_c m_own m_q m_run m_th m_tr]; unfold heldn; cbn [m_tr].
  - done.
  - by rewrite !Z.
  - rewrite !Z by done. simpl. lia.
  - rewrite !Z by done. lia.
  - rewrite !Z by done. simpl. lia.
  - intros i. rewrite Z by done. unfold blocked.
    destruct (replicate n MIdle !! i) eqn:E; [|done]. apply lookup_replicate in E as [-> _]. done.
  - rewrite x3s_nil; [done|]. by apply Z.
  - done.
  - done.
Qed.

Lemma minv_step f s i a s' : minv s -> exit_held s i a -> m_step f s i a = Some s' -> minv s'.
Proof.
  intros I EH E. unfold m_step in E. destruct (m_th s !! i) as [pc|] eqn:Ei; [|done].
  assert (Hil : i < length (m_th s)) by (by eapply lookup_lt_Some).
  pose proof (fun P q => cnt_insert P (m_th s) i pc q Ei) as C.
  pose proof (fun P => cnt_pos P (m_th s) i pc Ei) as CP.
  destruct I as [INB IC I1 IW IH IO IF IOw IOw'].
  assert (HQ : forall q, (forall k, lk (m_tr s) = HeldBy k -> m_own s = Some k) ->
    (forall k, m_own s = Some k -> lk (m_tr s) = HeldBy k \/ exists j, m_th s !! j = Some MX0) ->
    pc <> MX0 -> forall k, m_own s = Some k -> lk (m_tr s) = HeldBy k \/ exists j, <[i := q]> (m_th s) !! j = Some MX0).
  { intros q _ H Hne k Hk. destruct (H k Hk) as [|[j Hj]]; [by left|]. right. exists j.
    rewrite list_lookup_insert_ne; [done|]. intros ->. congruence. }
  assert (HB : blocked (m_th s) i = match pc with ME2 => 1 | _ => 0 end) by (unfold blocked; by rewrite Ei).
  assert (HX : a = AExit -> exists j, lk (m_tr s) = HeldBy j) by apply EH.
  assert (HF : own_pc pc = true -> lk (m_tr s) = Free).
  { intros H. specialize (CP own_pc H). unfold heldn in I1. destruct (lk (m_tr s)); [done|lia|done]. }
  unfold heldn in *.
  destruct pc, a; simpl in E; try discriminate E.
  all: repeat match type of E with
       | context [if ?b then _ else _] => destruct b eqn:?
       | context [match run_take ?x ?y with _ => _ end] => destruct (run_take x y) as [r'|] eqn:ER
       | context [match m_c ?x with _ => _ end] => destruct (m_c x) as [|[|c']] eqn:EC
       | context [match m_q ?x with _ => _ end] => destruct (m_q x) as [|j0 q'] eqn:EQ
       end; try discriminate E.
  all: injection E as <-.
  all: try (specialize (HF eq_refl); rewrite HF in *).
  all: try (destruct (HX eq_refl) as [h Hh]; rewrite Hh in *).
  (* the panic of exit cannot happen *)
  all: try (exfalso; pose proof (CP own_pc eq_refl); lia).
  all: unfold mset; split; cbn [m_c m_own m_q m_run m_th m_tr]; unfold heldn; cbn [m_tr];
       rewrite ?app_nil_r, ?lk_app, ?queued_app, ?granted_app; cbn [lk_step]; try assumption.
  all: try match goal with H : lk _ = Free |- _ => rewrite H end.
  all: try match goal with H : lk _ = HeldBy _ |- _ => rewrite H end.
  all: match goal with |- context [cnt own_pc (<[_ := ?q]> _)] =>
         pose proof (C own_pc q); pose proof (C hand_pc q); pose proof (C wait_pc q)
       | |- context [cnt wait_pc (<[_ := ?q]> _)] =>
         pose proof (C own_pc q); pose proof (C hand_pc q); pose proof (C wait_pc q)
       | _ => idtac end.
  all: cbn [own_pc hand_pc wait_pc Nat.b2n] in *.
  all: try (match type of CP with forall P, P ?q = true -> _ => pose proof (CP own_pc eq_refl) end).
  all: try (match type of CP with forall P, P ?q = true -> _ => pose proof (CP wait_pc eq_refl) end).
  all: try (match type of CP with forall P, P ?q = true -> _ => pose proof (CP hand_pc eq_refl) end).
  all: try solve [ lia | destruct (lk (m_tr _)); simpl in *; lia ].
  all: try (intros k; pose proof (IO k); rewrite blocked_insert by done;
       match goal with |- context [cnt (x3_pc k) (<[_ := ?q]> _)] => pose proof (C (x3_pc k) q) end;
       cbn [x3_pc Nat.b2n] in *; rewrite ?occ_app;
       destruct (decide (k = i)) as [->|]; try rewrite HB in *; lia).
  all: try (rewrite (x3s_insert_other _ _ _ _ Ei) by done; rewrite ?app_nil_r; done).
  all: try (apply HQ; done).
  all: try done.
  all: try (intros k [= ->]; first [done | by left]).
  all: try (intros k Hk; right; exists i; by apply list_lookup_insert).
  all: try (rewrite (x3s_insert_other _ _ _ _ Ei) by done; rewrite ?app_nil_r, IF, <- ?app_assoc; done).
  all: try (destruct (run_take_Some _ _ _ ER) as [R1 R2]; first [lia|
       intros k; pose proof (IO k); pose proof (R2 k); rewrite blocked_insert by done;
       match goal with |- context [cnt (x3_pc k) (<[_ := ?q]> _)] => pose proof (C (x3_pc k) q) end;
       cbn [x3_pc Nat.b2n] in *;
       destruct (Nat.eqb_spec k i) as [->|]; [rewrite decide_True by done; rewrite HB in * |rewrite decide_False by done]; cbn [Nat.b2n] in *; lia]).
  all: try (rewrite app_length; simpl; lia).
  - intros k. pose proof (IO k). rewrite blocked_insert, occ_app by done.
    pose proof (C (x3_pc k) ME2). cbn [x3_pc Nat.b2n] in *.
    change (occ k [i]) with (Nat.b2n (k =? i) + 0).
    destruct (Nat.eqb_spec k i) as [->|]; [rewrite decide_True by done; rewrite HB in * |rewrite decide_False by done]; cbn [Nat.b2n] in *; lia.
  - rewrite (x3s_insert_other _ _ _ _ Ei) by done. by rewrite app_nil_r in IF.
  - intros k. pose proof (IO k). rewrite blocked_insert by done.
    pose proof (C (x3_pc k) (MX3 j0)). cbn [x3_pc Nat.b2n] in *.
    change (occ k (j0 :: q')) with (Nat.b2n (k =? j0) + occ k q') in *.
    destruct (decide (k = i)) as [->|]; [rewrite HB in * |]; cbn [Nat.b2n] in *; lia.
  - rewrite (x3s_insert_new _ _ _ Hil); [|rewrite Ei; simpl; pose proof (CP hand_pc eq_refl); lia].
    rewrite IF, x3s_nil' with (i := i); [done|done|pose proof (CP hand_pc eq_refl); lia].
  - intros k. pose proof (IO k). rewrite blocked_insert, occ_app by done.
    pose proof (C (x3_pc k) MIdle). cbn [x3_pc Nat.b2n] in *.
    change (occ k [j]) with (Nat.b2n (k =? j) + 0).
    destruct (decide (k = i)) as [->|]; [rewrite HB in * |]; cbn [Nat.b2n] in *; lia.
  - assert (Hh1 : cnt hand_pc (m_th s) = 1) by (pose proof (CP hand_pc eq_refl); lia).
    rewrite x3s_nil by (pose proof (C hand_pc MIdle); cbn [hand_pc Nat.b2n] in *; lia).
    rewrite app_nil_r, IF, (x3s_old _ _ _ Ei Hh1). by rewrite <- !app_assoc.
Qed.

Lemma m_run_inv f s l s' : minv s -> sched_ok exit_held f s l -> m_run_sched f s l = Some s' -> minv s'.
Proof.
  revert s. induction l as [|[i a] l IH]; intros s I H E; simpl in E; [by injection E as <-|].
  destruct (m_step f s i a) as [s1|] eqn:E1; [|done]. destruct H as [H1 H2].
  eapply IH; [|by apply H2|done]. by eapply minv_step.
Qed.
