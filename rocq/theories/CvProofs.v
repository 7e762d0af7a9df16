(** Proofs for condition variables (C66). *)
From Verif Require Import Base CvModel CvSpec.

Definition waitph (p : cpc) : Prop := match p with CWExit _ | CWBlock _ | CWBlocked _ => True | _ => False end.
Definition mk (p : cpc) : list nat := match p with CMakeA l => l | CMakeB x l => x :: l | _ => [] end.
Definition snapof (p : cpc) : option (list nat) :=
  match p with CPushW w _ | CRemW w _ | CSigW w | CBcW w => Some w | _ => None end.
Definition untimed (p : cpc) : Prop :=
  match p with CPushW _ tm | CWExit tm | CWBlock tm | CWBlocked tm | CWEnter tm | CRem0 tm | CRemW _ tm => tm = false
             | _ => True end.
Definition holds (m : option nat) (t : nat) (p : cpc) : Prop :=
  match p with
  | CPushW _ _ | CWExit _ | CRem0 _ | CRemW _ _ => m = Some t
  | CWBlock _ | CWBlocked _ | CWEnter _ => m <> Some t
  | _ => True end.
(** What a call under way does to the sleepers. *)
Definition shift (u : nat) (p : cpc) (w : list nat) : option (list nat) :=
  match p with CPushW _ _ => Some (u :: w) | CSigW _ => Some (tail w) | CBcW _ => Some [] | _ => None end.

Record cinv (s : cst) : Prop := mkCinv {
  i_snap : forall u w, snapof (v_pc s u) = Some w -> w = v_w s;
  i_one : forall u v, busy s u -> busy s v -> u = v;
  i_nd : NoDup (v_w s);
  i_w : forall t, t ∈ v_w s -> waitph (v_pc s t) /\ v_rq s t = 0;
  i_mknd : forall u, NoDup (mk (v_pc s u));
  i_mk : forall u t, t ∈ mk (v_pc s u) -> waitph (v_pc s t) /\ v_rq s t = 0 /\ t ∉ v_w s;
  i_mkd : forall u v t, t ∈ mk (v_pc s u) -> t ∈ mk (v_pc s v) -> u = v;
  i_rq : forall t, v_rq s t = 0 \/ (v_rq s t = 1 /\ waitph (v_pc s t));
  i_cov : forall t, waitph (v_pc s t) -> t ∈ v_w s \/ (exists u, t ∈ mk (v_pc s u)) \/ v_rq s t = 1;
  i_tl : forall t, v_tl s t = false;
  i_unt : forall t, untimed (v_pc s t);
  i_crash : v_crash s = false;
  i_hold : forall t, holds (v_mtx s) t (v_pc s t);
  i_sl1 : forall u l, shift u (v_pc s u) (v_w s) = Some l -> sleepers (v_ev s) = l;
  i_sl0 : (forall u, shift u (v_pc s u) (v_w s) = None) -> sleepers (v_ev s) = v_w s }.

Lemma cupd_eq {A} (f : nat -> A) i x : cupd f i x i = x.
Proof. unfold cupd. by rewrite Nat.eqb_refl. Qed.
Lemma cupd_ne {A} (f : nat -> A) i j x : j <> i -> cupd f i x j = f j.
Proof. intros H. unfold cupd. by destruct (Nat.eqb_spec j i). Qed.

Lemma cinv_init : cinv cv_init.
Proof. constructor; cbn; try done; try (intros; by left); intros; try set_solver; constructor. Qed.

Lemma rem1_notin x l : x ∉ l -> rem1 x l = l.
Proof.
  induction l as [|y l IH]; intros H; [done|]. cbn. apply not_elem_of_cons in H as [H1 H2].
  destruct (Nat.eqb_spec y x) as [->|]; [done|]. by rewrite IH.
Qed.
Lemma remove_item_notin x l : x ∉ l -> remove_item x l = l.
Proof.
  intros H. unfold remove_item. rewrite rem1_notin; [apply reverse_involutive|]. by rewrite elem_of_reverse.
Qed.
Lemma existsb_notin x l : x ∉ l -> existsb (Nat.eqb x) l = false.
Proof.
  induction l as [|y l IH]; intros H; [done|]. cbn. apply not_elem_of_cons in H as [H1 H2].
  rewrite IH by done. by destruct (Nat.eqb_spec x y).
Qed.

Lemma busy_snap s u : busy s u <-> exists w, snapof (v_pc s u) = Some w.
Proof. unfold busy. destruct (v_pc s u); cbn; split; intros H; try done; try (by destruct H); eauto. Qed.
Lemma shift_busy s u l : shift u (v_pc s u) (v_w s) = Some l -> busy s u.
Proof. unfold busy. by destruct (v_pc s u). Qed.

(** Only the program counter of one thread changes, to one outside of the list of waiters. *)
Ltac upd j i := destruct (decide (j = i)) as [->|]; [rewrite ?cupd_eq in *|rewrite ?(cupd_ne _ i j) in * by done].

Lemma waits_count s t : cinv s -> waitph (v_pc s t) -> t ∈ v_w s -> forall u, t ∉ mk (v_pc s u).
Proof. intros I _ H u Hu. by apply (i_mk s I) in Hu as (_ & _ & ?). Qed.

Ltac upds :=
  unfold cupd in *; repeat match goal with
  | H : context [Nat.eqb ?a ?b] |- _ => destruct (Nat.eqb_spec a b); subst
  | |- context [Nat.eqb ?a ?b] => destruct (Nat.eqb_spec a b); subst
  end.

Lemma inv_ext s s' :
  cinv s -> v_w s' = v_w s -> (forall t, v_rq s' t = v_rq s t) -> v_ev s' = v_ev s -> v_crash s' = v_crash s ->
  (forall u, mk (v_pc s' u) = mk (v_pc s u)) -> (forall u, waitph (v_pc s' u) <-> waitph (v_pc s u)) ->
  (forall u, snapof (v_pc s' u) = snapof (v_pc s u)) ->
  (forall u, shift u (v_pc s' u) (v_w s) = shift u (v_pc s u) (v_w s)) ->
  (forall t, v_tl s' t = false) -> (forall t, untimed (v_pc s' t)) -> (forall t, holds (v_mtx s') t (v_pc s' t)) ->
  cinv s'.
Proof.
  intros I Ew Er Ee Ec Em Eq Es Esh Ht Hu Hh. destruct I.
  assert (Eb : forall u, busy s' u <-> busy s u) by (intros u; rewrite !busy_snap, Es; done).
  constructor; try done.
  - intros u w. rewrite Es, Ew. apply i_snap0.
  - intros u v. rewrite !Eb. apply i_one0.
  - by rewrite Ew.
  - intros t. rewrite Ew, Eq, Er. apply i_w0.
  - intros u. rewrite Em. apply i_mknd0.
  - intros u t. rewrite Em, Ew, Eq, Er. apply i_mk0.
  - intros u v t. rewrite !Em. apply i_mkd0.
  - intros t. rewrite Er, Eq. apply i_rq0.
  - intros t. rewrite Eq, Ew, Er. intros H. destruct (i_cov0 t H) as [?|[[u ?]|?]]; eauto. right; left. exists u. by rewrite Em.
  - by rewrite Ec.
  - intros u l. rewrite Ew, Esh, Ee. apply i_sl2.
  - rewrite Ew, Ee. intros H. apply i_sl3. intros u. rewrite <- Esh. apply H.
Qed.

(** A step of [t] that changes neither the list nor the run queue. *)
Lemma inv_neutral s t p' m' tl' d' :
  cinv s -> (waitph p' <-> waitph (v_pc s t)) -> mk p' = mk (v_pc s t) -> snapof (v_pc s t) = None -> snapof p' = None ->
  untimed p' -> (forall x, tl' x = false) -> holds m' t p' -> (forall x, x <> t -> holds m' x (v_pc s x)) ->
  cinv (mkCV m' (v_w s) (cupd (v_pc s) t p') (v_rq s) tl' d' (v_ev s) (v_crash s)).
Proof.
  intros I Ew Em Es Es' Hu Ht Hh Hh'.
  eapply (inv_ext s); cbn; try done.
  - intros u. by upd u t.
  - intros u. by upd u t.
  - intros u. upd u t; congruence.
  - intros u. upd u t; [|done]. by destruct (v_pc s t), p'.
  - intros u. upd u t; [done|]. apply (i_unt s I).
  - intros u. upd u t; auto.
Qed.

(** [t] begins to access the list. *)
Lemma inv_begin s t p' d' e' c' :
  cinv s -> (forall u, ~ busy s u) -> ~ waitph (v_pc s t) -> mk (v_pc s t) = [] -> ~ waitph p' -> mk p' = [] ->
  snapof p' = Some (v_w s) -> untimed p' -> holds (v_mtx s) t p' -> c' = false ->
  (shift t p' (v_w s) = Some (sleepers e') \/ (shift t p' (v_w s) = None /\ sleepers e' = sleepers (v_ev s))) ->
  cinv (mkCV (v_mtx s) (v_w s) (cupd (v_pc s) t p') (v_rq s) (v_tl s) d' e' c').
Proof.
  intros I Hb Hw Hm Hw' Hm' Hs' Hu Hh -> Hsh.
  assert (Hsn : forall u, snapof (v_pc s u) = None).
  { intros u. destruct (snapof (v_pc s u)) eqn:E; [|done]. exfalso. apply (Hb u). apply busy_snap. eauto. }
  assert (Hsf : forall u, shift u (v_pc s u) (v_w s) = None).
  { intros u. destruct (shift u (v_pc s u) (v_w s)) eqn:E; [|done]. by apply shift_busy, Hb in E. }
  assert (Em : forall u, mk (cupd (v_pc s) t p' u) = mk (v_pc s u)) by (intros u; upd u t; congruence).
  assert (Ew : forall u, waitph (cupd (v_pc s) t p' u) <-> waitph (v_pc s u)) by (intros u; by upd u t).
  destruct I. constructor; cbn; try done.
  - intros u w. upd u t; [congruence|]. apply i_snap0.
  - intros u v. rewrite !busy_snap. cbn. intros [w1 H1] [w2 H2]. upd u t; upd v t; try done; by rewrite Hsn in *.
  - intros x Hx. rewrite Ew. by apply i_w0.
  - intros u. by rewrite Em.
  - intros u x. rewrite Em, Ew. apply i_mk0.
  - intros u v x. rewrite !Em. apply i_mkd0.
  - intros x. rewrite Ew. apply i_rq0.
  - intros x. rewrite Ew. intros H. destruct (i_cov0 x H) as [?|[[u ?]|?]]; eauto. right; left. exists u. by rewrite Em.
  - intros x. upd x t; auto.
  - intros x. upd x t; auto.
  - intros u l. upd u t; [|by rewrite Hsf].
    destruct Hsh as [E|[E _]]; congruence.
  - intros H. destruct Hsh as [E|[_ E]]; [specialize (H t); rewrite cupd_eq in H; congruence|]. rewrite E. by apply i_sl3.
Qed.

(** Only [t] accesses the list. *)
Lemma only_busy s t : cinv s -> busy s t -> forall u, u <> t -> snapof (v_pc s u) = None /\ shift u (v_pc s u) (v_w s) = None.
Proof.
  intros I Hb u Hu. split.
  - destruct (snapof (v_pc s u)) eqn:E; [|done]. exfalso. apply Hu. apply (i_one s I); [|done]. apply busy_snap. eauto.
  - destruct (shift u (v_pc s u) (v_w s)) eqn:E; [|done]. exfalso. apply Hu. apply (i_one s I); [|done]. by eapply shift_busy.
Qed.

(** [t] finishes its access and the list of waiters shrinks to [w'], the rest is taken over by [t]. *)
Lemma inv_take s t p' w' e' c' :
  cinv s -> busy s t -> ~ waitph (v_pc s t) -> mk (v_pc s t) = [] -> ~ waitph p' -> snapof p' = None ->
  untimed p' -> holds (v_mtx s) t p' -> c' = false ->
  NoDup (mk p') -> NoDup w' -> (forall x, x ∈ v_w s <-> x ∈ w' \/ x ∈ mk p') -> (forall x, x ∈ w' -> x ∉ mk p') ->
  sleepers e' = w' ->
  cinv (mkCV (v_mtx s) w' (cupd (v_pc s) t p') (v_rq s) (v_tl s) (v_dbg s) e' c').
Proof.
  intros I Hb Hw Hm Hw' Hs' Hu Hh -> Hnd Hnd' Hsp Hdj Hsl.
  pose proof (only_busy s t I Hb) as Ho.
  assert (Ew : forall u, waitph (cupd (v_pc s) t p' u) <-> waitph (v_pc s u)) by (intros u; by upd u t).
  assert (Hs'' : forall u, snapof (cupd (v_pc s) t p' u) = None).
  { intros u. upd u t; [done|]. by apply Ho. }
  destruct I. constructor; cbn; try done.
  - intros u w. by rewrite Hs''.
  - intros u v. rewrite !busy_snap. cbn. intros [w1 H1]. by rewrite Hs'' in H1.
  - intros x Hx. rewrite Ew. apply i_w0, Hsp. by left.
  - intros u. by upd u t.
  - intros u x. rewrite Ew. upd u t; intros Hx.
    + destruct (i_w0 x) as [? ?]; [apply Hsp; by right|]. split; [done|split; [done|]]. intros Hx'. by apply (Hdj x).
    + destruct (i_mk0 u x Hx) as (? & ? & Hn). split; [done|split; [done|]]. intros Hx'. apply Hn, Hsp. by left.
  - intros u v x. upd u t; upd v t; intros H1 H2; try done.
    + exfalso. destruct (i_mk0 v x H2) as (_ & _ & Hn). apply Hn, Hsp. by right.
    + exfalso. destruct (i_mk0 u x H1) as (_ & _ & Hn). apply Hn, Hsp. by right.
    + by eapply i_mkd0.
  - intros x. rewrite Ew. apply i_rq0.
  - intros x. rewrite Ew. intros H. destruct (i_cov0 x H) as [Hx|[[u ?]|?]]; eauto.
    + apply Hsp in Hx as [?|Hx]; [by left|]. right; left. exists t. by rewrite cupd_eq.
    + right; left. exists u. upd u t; [|done]. rewrite Hm in *. by apply elem_of_nil in H0.
  - intros x. upd x t; auto.
  - intros x. upd x t; auto.
  - intros u l H. specialize (Hs'' u). by destruct (cupd (v_pc s) t p' u).
Qed.

Lemma inv_push s t snap :
  cinv s -> v_pc s t = CPushW snap false ->
  cinv (mkCV (v_mtx s) (t :: snap) (cupd (v_pc s) t (CWExit false)) (v_rq s) (v_tl s) (v_dbg s) (v_ev s) (v_crash s)).
Proof.
  intros I E. assert (Hb : busy s t) by (unfold busy; by rewrite E).
  pose proof (only_busy s t I Hb) as Ho.
  assert (snap = v_w s) as -> by (apply (i_snap s I t); by rewrite E).
  assert (Ht : t ∉ v_w s). { intros H. apply (i_w s I) in H as [H _]. by rewrite E in H. }
  assert (Hr : v_rq s t = 0). { destruct (i_rq s I t) as [?|[_ H]]; [done|]. by rewrite E in H. }
  assert (Hm : forall u, t ∉ mk (v_pc s u)). { intros u H. apply (i_mk s I) in H as [H _]. by rewrite E in H. }
  assert (Hs'' : forall u, snapof (cupd (v_pc s) t (CWExit false) u) = None).
  { intros u. upd u t; [done|]. by apply Ho. }
  assert (Em : forall u, mk (cupd (v_pc s) t (CWExit false) u) = mk (v_pc s u)).
  { intros u. upd u t; [by rewrite E|done]. }
  pose proof (i_sl1 s I t (t :: v_w s) ltac:(by rewrite E)) as Hsl.
  pose proof (i_hold s I t) as Hh. rewrite E in Hh. cbn in Hh.
  destruct I. constructor; cbn; try done.
  - intros u w. by rewrite Hs''.
  - intros u v. rewrite !busy_snap. cbn. intros [w1 H1]. by rewrite Hs'' in H1.
  - apply stdpp.list.NoDup_cons. done.
  - intros x Hx. apply elem_of_cons in Hx as [->|Hx]; [by rewrite cupd_eq|]. upd x t; [done|]. by apply i_w0.
  - intros u. rewrite Em. done.
  - intros u x. rewrite Em. intros Hx. assert (x <> t) by (intros ->; by apply (Hm u)).
    rewrite cupd_ne by done. destruct (i_mk0 u x Hx) as (? & ? & ?). rewrite not_elem_of_cons. done.
  - intros u v x. rewrite !Em. apply i_mkd0.
  - intros x. upd x t; auto.
  - intros x. upd x t; intros H; [left; by apply elem_of_cons; left|].
    destruct (i_cov0 x H) as [Hx|[[u ?]|?]]; eauto; [left; by apply elem_of_cons; right|].
    right; left. exists u. by rewrite Em.
  - intros x. upd x t; auto; done.
  - intros x. upd x t; auto.
  - intros u l H. specialize (Hs'' u). by destruct (cupd (v_pc s) t (CWExit false) u).
Qed.

Lemma inv_wake s t x l :
  cinv s -> v_pc s t = CMakeB x l ->
  cinv (mkCV (v_mtx s) (v_w s) (cupd (v_pc s) t (match l with [] => CIdle | _ => CMakeA l end))
             (cupd (v_rq s) x (S (v_rq s x))) (v_tl s) (v_dbg s) (v_ev s) (v_crash s)).
Proof.
  intros I E. set (p' := match l with [] => CIdle | _ => CMakeA l end).
  assert (Hp : mk p' = l /\ ~ waitph p' /\ snapof p' = None /\ untimed p' /\ holds (v_mtx s) t p') by (unfold p'; destruct l; cbn; repeat split; auto).
  destruct Hp as (Hmk & Hw & Hsn & Hu & Hh).
  assert (Ht : x ∈ mk (v_pc s t)) by (rewrite E; by left).
  destruct (i_mk s I t x Ht) as (Hxw & Hx0 & Hxn).
  pose proof (i_mknd s I t) as Hnd. rewrite E in Hnd. cbn in Hnd. apply stdpp.list.NoDup_cons in Hnd as [Hnd1 Hnd2].
  assert (Ew : forall u, waitph (cupd (v_pc s) t p' u) <-> waitph (v_pc s u)).
  { intros u. upd u t; [by rewrite E|done]. }
  assert (Es : forall u, snapof (cupd (v_pc s) t p' u) = snapof (v_pc s u)).
  { intros u. upd u t; [by rewrite E|done]. }
  assert (Em : forall u y, y ∈ mk (cupd (v_pc s) t p' u) -> y ∈ mk (v_pc s u)).
  { intros u y. upd u t; [|done]. rewrite E, Hmk. cbn. intros ?. by right. }
  assert (Hxu : forall u, x ∉ mk (cupd (v_pc s) t p' u)).
  { intros u. upd u t; [by rewrite Hmk|]. intros H. apply n. by apply (i_mkd s I _ _ x). }
  destruct I. constructor; cbn; try done.
  - intros u w. rewrite Es. apply i_snap0.
  - intros u v. rewrite !busy_snap. cbn. rewrite !Es. intros H1 H2. apply i_one0; by apply busy_snap.
  - intros y Hy. rewrite Ew. upd y x; [done|]. by apply i_w0.
  - intros u. upd u t; [by rewrite Hmk|done].
  - intros u y Hy. rewrite Ew. assert (y <> x) by (intros ->; by apply (Hxu u)). rewrite cupd_ne by done.
    eapply i_mk0, Em, Hy.
  - intros u v y H1 H2. eapply i_mkd0; by apply Em.
  - intros y. rewrite Ew. upd y x; [right; by rewrite Hx0|apply i_rq0].
  - intros y. rewrite Ew. upd y x; [intros _; right; right; by rewrite Hx0|]. intros H.
    destruct (i_cov0 y H) as [Hy|[[u Hy]|?]]; eauto. right; left. exists u. upd u t; [|done].
    rewrite Hmk. rewrite E in Hy. cbn in Hy. by apply elem_of_cons in Hy as [?|?].
  - intros y. upd y t; auto.
  - intros y. upd y t; auto.
  - intros u l0 H. apply (i_sl2 u). upd u t; [|done]. by destruct l.
  - intros H. apply i_sl3. intros u. specialize (H u). upd u t; [by rewrite E|done].
Qed.

Lemma inv_run s t n :
  cinv s -> v_rq s t = S n -> forall tm, v_pc s t = CWBlocked tm ->
  cinv (mkCV (v_mtx s) (v_w s) (cupd (v_pc s) t (CWEnter tm)) (cupd (v_rq s) t n) (v_tl s) (v_dbg s) (v_ev s) (v_crash s)).
Proof.
  intros I Hr tm E.
  assert (n = 0) as -> by (destruct (i_rq s I t) as [?|[? _]]; lia).
  assert (Htw : t ∉ v_w s) by (intros H; apply (i_w s I) in H; lia).
  assert (Htm : forall u, t ∉ mk (v_pc s u)) by (intros u H; apply (i_mk s I) in H; lia).
  assert (Em : forall u, mk (cupd (v_pc s) t (CWEnter tm) u) = mk (v_pc s u)).
  { intros u. upd u t; [by rewrite E|done]. }
  assert (Es : forall u, snapof (cupd (v_pc s) t (CWEnter tm) u) = snapof (v_pc s u)).
  { intros u. upd u t; [by rewrite E|done]. }
  pose proof (i_hold s I t) as Hh. rewrite E in Hh. cbn in Hh.
  pose proof (i_unt s I t) as Hu. rewrite E in Hu. cbn in Hu.
  destruct I. constructor; cbn; try done.
  - intros u w. rewrite Es. apply i_snap0.
  - intros u v. rewrite !busy_snap. cbn. rewrite !Es. intros H1 H2. apply i_one0; by apply busy_snap.
  - intros y Hy. assert (y <> t) by (by intros ->). rewrite !cupd_ne by done. by apply i_w0.
  - intros u. by rewrite Em.
  - intros u y. rewrite Em. intros Hy. assert (y <> t) by (intros ->; by apply (Htm u)). rewrite !cupd_ne by done.
    by eapply i_mk0.
  - intros u v y. rewrite !Em. apply i_mkd0.
  - intros y. upd y t; [by left|apply i_rq0].
  - intros y. upd y t; [done|]. intros H. destruct (i_cov0 y H) as [Hy|[[u Hy]|?]]; eauto.
    right; left. exists u. by rewrite Em.
  - intros y. upd y t; auto.
  - intros y. upd y t; auto.
  - intros u l H. apply (i_sl2 u). by upd u t.
  - intros H. apply i_sl3. intros u. specialize (H u). upd u t; [by rewrite E|done].
Qed.

(** * Every run *)
Definition inwait (p : cpc) : bool :=
  match p with CPushW _ _ | CWExit _ | CWBlock _ | CWBlocked _ | CWEnter _ | CRem0 _ | CRemW _ _ => true | _ => false end.
Definition hinv (s : cst) : Prop :=
  forall t, holds (v_mtx s) t (v_pc s t) /\ waits (v_ev s) t = inwait (v_pc s t).

Lemma hinv_step s l s' : hinv s -> cv_label s l = Some s' -> hinv s'.
Proof.
  intros I H x. pose proof (I x) as [I1 I2].
  destruct l as [t|t|t tm|u|u|t|t|t|t]; cbn [cv_label] in H.
  - destruct (v_pc s t) eqn:E; try done. destruct (v_mtx s) eqn:Em; [done|]. injection H as <-. cbn.
    upd x t; [by rewrite E in I2|]. destruct (v_pc s x); cbn in *; split; try done; congruence.
  - destruct (v_pc s t) eqn:E; try done. destruct (v_mtx s) as [h|] eqn:Em; [|done]. destruct (Nat.eqb_spec h t) as [->|]; [|done].
    injection H as <-. cbn. upd x t; [by rewrite E in I2|]. destruct (v_pc s x); cbn in *; split; try done; congruence.
  - destruct (v_pc s t) eqn:E; try done. destruct (v_mtx s) as [h|] eqn:Em; [|done]. destruct (Nat.eqb_spec h t) as [->|]; [|done].
    injection H as <-. cbn. upd x t; [by rewrite Nat.eqb_refl|]. destruct (Nat.eqb_spec t x); [congruence|]. done.
  - destruct (v_pc s u) eqn:E; try done. injection H as <-. cbn. upd x u; [|done]. by rewrite E in I2.
  - destruct (v_pc s u) eqn:E; try done. injection H as <-. cbn. upd x u; [|done]. by rewrite E in I2.
  - destruct (v_pc s t) eqn:E; try done. injection H as <-. cbn. upd x t; [|done]. by rewrite E in I2.
  - unfold cv_thread in H. pose proof (I t) as [It _].
    destruct (v_pc s t) as [| |snap tm|tm|tm|tm|tm|tm|snap tm|snap|snap|[|y l]|y l] eqn:E; try done; cbn in It.
    + injection H as <-. cbn. upd x t; [|done]. rewrite E in I2. done.
    + injection H as <-. cbn. upd x t; [by rewrite E in I2|]. destruct (v_pc s x); cbn in *; split; try done; congruence.
    + injection H as <-. cbn. upd x t; [|done]. by rewrite E in I2.
    + destruct (v_mtx s) eqn:Em; [done|]. injection H as <-. cbn. upd x t; [by rewrite E in I2|].
      destruct (v_pc s x); cbn in *; split; try done; congruence.
    + injection H as <-. cbn. upd x t; [|done]. by rewrite E in I2.
    + injection H as <-. cbn. upd x t; [by rewrite Nat.eqb_refl|]. destruct (Nat.eqb_spec t x); [congruence|]. done.
    + destruct snap; injection H as <-; cbn; (upd x t; [|done]; by rewrite E in I2).
    + destruct snap; injection H as <-; cbn; (upd x t; [|done]; by rewrite E in I2).
    + injection H as <-. cbn. upd x t; [|done]. by rewrite E in I2.
    + injection H as <-. cbn. upd x t; [|done]. by rewrite E in I2.
    + destruct l; injection H as <-; cbn; (upd x t; [|done]; by rewrite E in I2).
  - destruct (v_rq s t); [done|]. pose proof (I t) as [It _]. destruct (v_pc s t) eqn:E; try done; injection H as <-; cbn;
      (upd x t; [|done]); rewrite E in I2; cbn in It; done.
  - destruct (v_tl s t); [|done]. injection H as <-. done.
Qed.
Lemma hinv_init : hinv cv_init.
Proof. intros t. done. Qed.
Lemma hinv_run s tr : hinv s -> hinv (cv_run s tr).
Proof.
  revert s. induction tr as [|l tr IH]; intros s I; [done|]. cbn. apply IH.
  destruct (cv_label s l) eqn:E; [|done]. by eapply hinv_step.
Qed.
Lemma hinv_reach tr : hinv (cv_reach tr).
Proof. apply hinv_run, hinv_init. Qed.

Lemma ret_holds2 s l s' t : hinv s -> cv_label s l = Some s' -> v_ev s' = ERet t :: v_ev s -> 
  exists snap tm, l = ZStep t /\ v_pc s t = CRemW snap tm.
Proof.
  intros I H He.
  assert (Hne : forall e, e :: v_ev s = v_ev s -> False).
  { intros e Hc. apply (f_equal length) in Hc. cbn in Hc. lia. }
  assert (Hne' : forall e, v_ev s = e :: v_ev s -> False) by (intros e Hc; by apply (Hne e)).
  destruct l as [u|u|u tm|u|u|u|u|u|u]; cbn [cv_label] in H.
  - destruct (v_pc s u), (v_mtx s); try done; injection H as <-; cbn in He; exfalso; eauto.
  - destruct (v_pc s u), (v_mtx s) as [h|]; try done. destruct (Nat.eqb h u); [|done]. injection H as <-; cbn in He; exfalso; eauto.
  - destruct (v_pc s u), (v_mtx s) as [h|]; try done. destruct (Nat.eqb h u); [|done]. injection H as <-; cbn in He; done.
  - destruct (v_pc s u); try done. injection H as <-; cbn in He; done.
  - destruct (v_pc s u); try done. injection H as <-; cbn in He; done.
  - destruct (v_pc s u); try done. injection H as <-; cbn in He; exfalso; eauto.
  - unfold cv_thread in H.
    destruct (v_pc s u) as [| |snap tm|tm|tm|tm|tm|tm|snap tm|snap|snap|[|y l]|y l] eqn:E; try done.
    + injection H as <-; cbn in He; exfalso; eauto.
    + injection H as <-; cbn in He; exfalso; eauto.
    + injection H as <-; cbn in He; exfalso; eauto.
    + destruct (v_mtx s); [done|]. injection H as <-; cbn in He; exfalso; eauto.
    + injection H as <-; cbn in He; exfalso; eauto.
    + injection H as <-; cbn in He. injection He as ->. eauto.
    + destruct snap; injection H as <-; cbn in He; exfalso; eauto.
    + destruct snap; injection H as <-; cbn in He; exfalso; eauto.
    + injection H as <-; cbn in He; exfalso; eauto.
    + injection H as <-; cbn in He; exfalso; eauto.
    + destruct l; injection H as <-; cbn in He; exfalso; eauto.
  - destruct (v_rq s u); [done|]. destruct (v_pc s u); try done; injection H as <-; cbn in He; [done|exfalso; eauto].
  - destruct (v_tl s u); [|done]. injection H as <-; cbn in He; exfalso; eauto.
Qed.

(** A wait ends with the mutex held by the caller. *)
Lemma ret_holds s l s' t : hinv s -> cv_label s l = Some s' -> v_ev s' = ERet t :: v_ev s -> v_mtx s' = Some t.
Proof.
  intros I H He. destruct (ret_holds2 s l s' t I H He) as (snap & tm & -> & E). cbn in H. unfold cv_thread in H.
  rewrite E in H. injection H as <-. cbn. pose proof (I t) as [It _]. by rewrite E in It.
Qed.

(** * Calm runs *)
Lemma holds_other m u t p : m = Some t -> u <> t -> holds m u p -> holds None u p.
Proof. intros -> Hu. destruct p; cbn; try done; congruence. Qed.
Lemma holds_other2 u t p : u <> t -> holds None u p -> holds (Some t) u p.
Proof. intros Hu. destruct p; cbn; try done; congruence. Qed.

Lemma cinv_step s l s' : cinv s -> calm s l -> cv_label s l = Some s' -> cinv s'.
Proof.
  intros I (Hun & Hrd & Hgd) H.
  destruct l as [t|t|t tm|u|u|t|t|t|t]; cbn [cv_label] in H.
  - destruct (v_pc s t) eqn:E; try done. destruct (v_mtx s) eqn:Em; [done|]. injection H as <-.
    apply inv_neutral; rewrite ?E; try done; [apply (i_tl s I)|]. intros x Hx. apply holds_other2; [done|].
    rewrite <- Em. apply (i_hold s I).
  - destruct (v_pc s t) eqn:E; try done. destruct (v_mtx s) as [h|] eqn:Em; [|done]. destruct (Nat.eqb_spec h t) as [->|]; [|done].
    injection H as <-.
    apply inv_neutral; rewrite ?E; try done; [apply (i_tl s I)|]. intros x Hx. apply (holds_other (v_mtx s) x t); [done| done|].
    apply (i_hold s I).
  - destruct (v_pc s t) eqn:E; try done. destruct (v_mtx s) as [h|] eqn:Em; [|done]. destruct (Nat.eqb_spec h t) as [->|]; [|done].
    destruct tm; [by destruct (Hun t)|].
    injection H as <-. rewrite <- Em. specialize (Hrd Logic.I).
    apply inv_begin; rewrite ?E; try done; try (by intros []); [apply I|]. left. cbn. f_equal. f_equal. symmetry. apply (i_sl0 s I).
    intros u. destruct (shift u (v_pc s u) (v_w s)) eqn:E'; [|done]. by apply shift_busy, Hrd in E'.
  - destruct (v_pc s u) eqn:E; try done. injection H as <-. specialize (Hrd Logic.I).
    apply inv_begin; rewrite ?E; try done; try (by intros []).
    + rewrite (i_crash s I). cbn. unfold owner_ok. destruct Hgd as [-> | ->]; [|rewrite Nat.eqb_refl]; by destruct (v_dbg s).
    + left. cbn. f_equal. f_equal. symmetry. apply (i_sl0 s I).
      intros x. destruct (shift x (v_pc s x) (v_w s)) eqn:E'; [|done]. by apply shift_busy, Hrd in E'.
  - destruct (v_pc s u) eqn:E; try done. injection H as <-. specialize (Hrd Logic.I).
    apply inv_begin; rewrite ?E; try done; try (by intros []).
    + rewrite (i_crash s I). cbn. unfold owner_ok. destruct Hgd as [-> | ->]; [|rewrite Nat.eqb_refl]; by destruct (v_dbg s).
    + by left.
  - destruct (v_pc s t) eqn:E; try done. injection H as <-.
    apply inv_neutral; rewrite ?E; try done; [apply (i_tl s I)|]. intros x Hx. apply (i_hold s I).
  - unfold cv_thread in H. pose proof (i_hold s I t) as Hh. pose proof (i_unt s I t) as Hu.
    unfold reads in Hrd.
    destruct (v_pc s t) as [| |snap tm|tm|tm|tm|tm|tm|snap tm|snap|snap|[|y l]|y l] eqn:E; try done; cbn in Hh, Hu.
    + subst tm. injection H as <-. by apply inv_push.
    + injection H as <-. apply inv_neutral; rewrite ?E; try done; [apply (i_tl s I)|].
      intros x Hx. apply (holds_other (v_mtx s) x t); [done|done|]. apply (i_hold s I).
    + subst tm. injection H as <-. apply inv_neutral; rewrite ?E; try done; [apply (i_tl s I)|]. intros x Hx. apply (i_hold s I).
    + destruct (v_mtx s) eqn:Em; [done|]. injection H as <-. apply inv_neutral; rewrite ?E; try done; [apply (i_tl s I)|].
      intros x Hx. apply holds_other2; [done|]. rewrite <- Em. apply (i_hold s I).
    + injection H as <-. apply inv_begin; rewrite ?E; try done; try (by intros []); [by apply Hrd|apply I|]. by right.
    + subst tm. injection H as <-. assert (Hb : busy s t) by (unfold busy; by rewrite E).
      assert (snap = v_w s) as -> by (apply (i_snap s I t); by rewrite E).
      assert (Ht : t ∉ v_w s). { intros Hin. apply (i_w s I) in Hin as [Hin _]. by rewrite E in Hin. }
      rewrite remove_item_notin by done. rewrite existsb_notin by done.
      apply inv_take; rewrite ?E; try done; try (by intros []); cbn.
      * by rewrite (i_crash s I).
      * constructor.
      * apply I.
      * intros x. split; [by left|]. intros [?|Hx]; [done|]. by apply elem_of_nil in Hx.
      * intros x _. apply not_elem_of_nil.
      * apply (i_sl0 s I). intros u. destruct (shift u (v_pc s u) (v_w s)) eqn:E'; [|done].
        assert (u = t) as -> by (apply (i_one s I); [by eapply shift_busy|done]). by rewrite E in E'.
    + assert (Hb : busy s t) by (unfold busy; by rewrite E).
      assert (snap = v_w s) as -> by (apply (i_snap s I t); by rewrite E).
      pose proof (i_sl1 s I t (tail (v_w s)) ltac:(by rewrite E)) as Hsl.
      pose proof (i_nd s I) as Hnd.
      destruct (v_w s) as [|x l] eqn:Ew; injection H as <-.
      * apply inv_take; rewrite ?E; try done; try (by intros []); cbn.
        -- by rewrite (i_crash s I).
        -- rewrite Ew. intros x. split; [by left|]. intros [?|Hx]; [done|]. by apply elem_of_nil in Hx.
        -- intros x Hx. by apply elem_of_nil in Hx.
      * apply stdpp.list.NoDup_cons in Hnd as [Hn1 Hn2].
        apply inv_take; rewrite ?E; try done; try (by intros []); cbn.
        -- by rewrite (i_crash s I).
        -- apply NoDup_singleton.
        -- rewrite Ew. intros z. rewrite elem_of_cons, elem_of_list_singleton. tauto.
        -- intros z Hz Hz'. apply elem_of_list_singleton in Hz' as ->. done.
    + assert (Hb : busy s t) by (unfold busy; by rewrite E).
      assert (snap = v_w s) as -> by (apply (i_snap s I t); by rewrite E).
      pose proof (i_sl1 s I t [] ltac:(by rewrite E)) as Hsl.
      pose proof (i_nd s I) as Hnd.
      injection H as <-.
      assert (Hp : exists p', (match v_w s with [] => CIdle | _ :: _ => CMakeA (reverse (v_w s)) end) = p' /\
                mk p' = reverse (v_w s) /\ ~ waitph p' /\ snapof p' = None /\ untimed p' /\ holds (v_mtx s) t p').
      { destruct (v_w s); eexists; repeat split; auto. }
      destruct Hp as (p' & -> & Hmk & ? & ? & ? & ?).
      apply inv_take; rewrite ?E; try done; try (by intros []); rewrite ?Hmk.
      * by rewrite (i_crash s I).
      * unfold reverse. rewrite <- rev_alt. by apply NoDup_ListNoDup, NoDup_rev, NoDup_ListNoDup.
      * constructor.
      * intros x. rewrite elem_of_reverse. split; [by right|]. intros [Hx|?]; [by apply elem_of_nil in Hx|done].
      * intros x Hx. by apply elem_of_nil in Hx.
    + injection H as <-. apply inv_neutral; rewrite ?E; try done; [apply (i_tl s I)|]. intros x Hx. apply (i_hold s I).
    + injection H as <-. apply inv_neutral; rewrite ?E; try done.
      * intros x. upd x y; [done|apply (i_tl s I)].
      * intros x Hx. apply (i_hold s I).
    + injection H as <-. by apply inv_wake.
  - destruct (v_rq s t) eqn:Er; [done|]. destruct (v_pc s t) eqn:E; try done; injection H as <-.
    + destruct (i_rq s I t) as [?|[_ Hw]]; [lia|]. by rewrite E in Hw.
    + by apply inv_run.
  - by rewrite (i_tl s I) in H.
Qed.

Lemma cinv_run s tr : cinv s -> calways calm s tr -> cinv (cv_run s tr).
Proof.
  revert s. induction tr as [|l tr IH]; intros s I H; [done|]. destruct H as [H1 H2]. cbn. apply IH; [|done].
  destruct (cv_label s l) eqn:E; [|done]. eapply cinv_step; [done|by apply H1|done].
Qed.
Lemma cinv_reach tr : calways calm cv_init tr -> cinv (cv_reach tr).
Proof. intros H. by apply cinv_run; [apply cinv_init|]. Qed.

Lemma ret_woken s l s' t : cinv s -> hinv s -> cv_label s l = Some s' -> v_ev s' = ERet t :: v_ev s -> t ∉ sleepers (v_ev s).
Proof.
  intros I Ih H He. destruct (ret_holds2 s l s' t Ih H He) as (snap & tm & -> & E).
  assert (Hb : busy s t) by (unfold busy; by rewrite E).
  rewrite (i_sl0 s I).
  - intros Hin. apply (i_w s I) in Hin as [Hin _]. by rewrite E in Hin.
  - intros u. destruct (shift u (v_pc s u) (v_w s)) eqn:E'; [|done].
    assert (u = t) as -> by (apply (i_one s I); [by eapply shift_busy|done]). by rewrite E in E'.
Qed.
Lemma else_stays s l s' t : cinv s -> cv_label s l = Some s' -> v_pc s t = CElse -> v_pc s' t = CElse.
Proof.
  intros I H E. destruct l as [u|u|u tm|u|u|u|u|u|u]; cbn [cv_label] in H.
  - destruct (v_pc s u) eqn:E', (v_mtx s); try done; injection H as <-; cbn. upd t u; [congruence|done].
  - destruct (v_pc s u) eqn:E', (v_mtx s) as [h|]; try done. destruct (Nat.eqb h u); [|done]. injection H as <-; cbn. upd t u; [congruence|done].
  - destruct (v_pc s u) eqn:E', (v_mtx s) as [h|]; try done. destruct (Nat.eqb h u); [|done]. injection H as <-; cbn. upd t u; [congruence|done].
  - destruct (v_pc s u) eqn:E'; try done. injection H as <-; cbn. upd t u; [congruence|done].
  - destruct (v_pc s u) eqn:E'; try done. injection H as <-; cbn. upd t u; [congruence|done].
  - destruct (v_pc s u) eqn:E'; try done. injection H as <-; cbn. by upd t u.
  - unfold cv_thread in H. assert (t <> u) by (intros ->; by rewrite E in H).
    destruct (v_pc s u) as [| |snap tm|tm|tm|tm|tm|tm|snap tm|snap|snap|[|y l]|y l] eqn:E'; try done;
      try (injection H as <-; cbn; by rewrite cupd_ne).
    + destruct (v_mtx s); [done|]. injection H as <-; cbn; by rewrite cupd_ne.
    + destruct snap; injection H as <-; cbn; by rewrite cupd_ne.
  - destruct (v_rq s u) eqn:Er; [done|]. destruct (v_pc s u) eqn:E'; try done; injection H as <-; cbn.
    + destruct (i_rq s I u) as [?|[_ Hw]]; [lia|]. by rewrite E' in Hw.
    + upd t u; [congruence|done].
  - destruct (v_tl s u); [|done]. by injection H as <-.
Qed.

(** * Runs in which signal and broadcast are called under the mutex are calm *)
Definition linv (s : cst) : Prop := forall t, busy s t -> v_mtx s = Some t.
Lemma linv_step s l s' : linv s -> hinv s -> locked s l -> cv_label s l = Some s' -> linv s'.
Proof.
  intros I Ih [Hun Hl] H x. pose proof (I x) as Ix. unfold busy in *.
  destruct l as [t|t|t tm|u|u|t|t|t|t]; cbn [cv_label] in H.
  - destruct (v_pc s t) eqn:E; try done. destruct (v_mtx s) eqn:Em; [done|]. injection H as <-. cbn.
    upd x t; [done|]. intros Hb. by apply Ix in Hb.
  - destruct (v_pc s t) eqn:E; try done. destruct (v_mtx s) as [h|] eqn:Em; [|done]. destruct (Nat.eqb_spec h t) as [->|]; [|done].
    injection H as <-. cbn. upd x t; [done|]. intros Hb. apply Ix in Hb. congruence.
  - destruct (v_pc s t) eqn:E; try done. destruct (v_mtx s) as [h|] eqn:Em; [|done]. destruct (Nat.eqb_spec h t) as [->|]; [|done].
    injection H as <-. cbn. by upd x t.
  - destruct (v_pc s u) eqn:E; try done. injection H as <-. cbn. by upd x u.
  - destruct (v_pc s u) eqn:E; try done. injection H as <-. cbn. by upd x u.
  - destruct (v_pc s t) eqn:E; try done. injection H as <-. cbn. by upd x t.
  - unfold cv_thread in H. pose proof (Ih t) as [It _]. pose proof (I t) as It'. unfold busy in It'.
    destruct (v_pc s t) as [| |snap tm|tm|tm|tm|tm|tm|snap tm|snap|snap|[|y l]|y l] eqn:E; try done; cbn in It.
    + injection H as <-. cbn. by upd x t.
    + injection H as <-. cbn. upd x t; [done|]. intros Hb. apply Ix in Hb. congruence.
    + injection H as <-. cbn. by upd x t.
    + destruct (v_mtx s) eqn:Em; [done|]. injection H as <-. cbn. upd x t; [done|]. intros Hb. by apply Ix in Hb.
    + injection H as <-. cbn. by upd x t.
    + injection H as <-. cbn. by upd x t.
    + destruct snap; injection H as <-; cbn; by upd x t.
    + destruct snap; injection H as <-; cbn; by upd x t.
    + injection H as <-. cbn. by upd x t.
    + injection H as <-. cbn. by upd x t.
    + destruct l; injection H as <-; cbn; by upd x t.
  - destruct (v_rq s t); [done|]. destruct (v_pc s t) eqn:E; try done; injection H as <-; cbn; by upd x t.
  - destruct (v_tl s t); [|done]. by injection H as <-.
Qed.
Lemma locked_calm s l s' : linv s -> hinv s -> locked s l -> cv_label s l = Some s' -> calm s l.
Proof.
  intros I Ih [Hun Hl] H.
  split; [done|]. split.
  - intros Hr u Hb. pose proof (I u Hb) as Hm. unfold busy in Hb.
    destruct l as [t|t|t tm|v|v|t|t|t|t]; cbn [reads cv_label] in *; try done.
    + rewrite Hm in H. destruct (v_pc s t) eqn:E; try done. destruct (Nat.eqb_spec u t) as [->|]; [|done]. by rewrite E in Hb.
    + destruct (v_pc s v) eqn:E; try done. assert (u = v) as -> by congruence. by rewrite E in Hb.
    + destruct (v_pc s v) eqn:E; try done. assert (u = v) as -> by congruence. by rewrite E in Hb.
    + pose proof (Ih t) as [It _]. destruct (v_pc s t) eqn:E; try done. cbn in It.
      assert (u = t) as -> by congruence. by rewrite E in Hb.
  - destruct l; try done; by right.
Qed.
Lemma locked_calm_run s tr : linv s -> hinv s -> calways locked s tr -> calways calm s tr.
Proof.
  revert s. induction tr as [|l tr IH]; intros s I Ih H; [done|]. destruct H as [H1 H2]. cbn [calways].
  destruct (cv_label s l) as [s'|] eqn:E; cbn [default] in *.
  - split; [intros _; eapply locked_calm; eauto; by apply H1|]. apply IH; [|by eapply hinv_step|done].
    eapply linv_step; eauto; by apply H1.
  - split; [done|]. by apply IH.
Qed.

(** * A thread that has been woken can finish its wait *)
Definition qr (s s' : cst) : Prop := exists tr, Forall onward tr /\ calways calm s tr /\ cv_run s tr = s'.
Lemma qr_refl s : qr s s.
Proof. exists []. split; [constructor|done]. Qed.
Lemma qr_step s l s' s'' : cv_label s l = Some s' -> onward l -> calm s l -> qr s' s'' -> qr s s''.
Proof.
  intros H Ho Hc (tr & H1 & H2 & H3). exists (l :: tr). cbn. rewrite H. cbn. split; [by constructor|]. done.
Qed.
Lemma qr_trans s s' s'' : qr s s' -> qr s' s'' -> qr s s''.
Proof.
  intros (tr & H1 & H2 & H3). revert s H1 H2 H3. induction tr as [|l tr IH]; intros s H1 H2 H3 H; cbn in *; [by subst|].
  apply stdpp.list.Forall_cons in H1 as [Ho H1]. destruct H2 as [Hc H2].
  destruct (cv_label s l) as [sn|] eqn:E; cbn in *.
  - eapply (qr_step s l); [done|done|by apply Hc|]. by apply IH.
  - by apply IH.
Qed.
Lemma qr_one s l s' : cv_label s l = Some s' -> onward l -> calm s l -> qr s s'.
Proof. intros. eapply qr_step; eauto. apply qr_refl. Qed.

(** Which thread is at the list, if any. *)
Definition binv (s : cst) : Prop := exists b : option nat, forall u, busy s u <-> b = Some u.
Lemma one_thread s l s' : cv_label s l = Some s' -> exists t, forall u, u <> t -> v_pc s' u = v_pc s u.
Proof.
  intros H. destruct l as [t|t|t tm|t|t|t|t|t|t]; cbn [cv_label] in H; exists t; intros u Hu.
  - destruct (v_pc s t), (v_mtx s); try done. injection H as <-. cbn. by rewrite cupd_ne.
  - destruct (v_pc s t), (v_mtx s) as [h|]; try done. destruct (Nat.eqb h t); [|done]. injection H as <-. cbn. by rewrite cupd_ne.
  - destruct (v_pc s t), (v_mtx s) as [h|]; try done. destruct (Nat.eqb h t); [|done]. injection H as <-. cbn. by rewrite cupd_ne.
  - destruct (v_pc s t); try done. injection H as <-. cbn. by rewrite cupd_ne.
  - destruct (v_pc s t); try done. injection H as <-. cbn. by rewrite cupd_ne.
  - destruct (v_pc s t); try done. injection H as <-. cbn. by rewrite cupd_ne.
  - unfold cv_thread in H.
    destruct (v_pc s t) as [| |snap tm|tm|tm|tm|tm|tm|snap tm|snap|snap|[|y l]|y l] eqn:E'; try done;
      try (injection H as <-; cbn; by rewrite cupd_ne).
    + destruct (v_mtx s); [done|]. injection H as <-; cbn; by rewrite cupd_ne.
    + destruct snap; injection H as <-; cbn; by rewrite cupd_ne.
  - destruct (v_rq s t); [done|]. destruct (v_pc s t); try done; injection H as <-; cbn; by rewrite cupd_ne.
  - destruct (v_tl s t); [|done]. by injection H as <-.
Qed.
Lemma busy_dec s u : {busy s u} + {~ busy s u}.
Proof. unfold busy. destruct (v_pc s u); (by left) || (right; by intros []). Qed.
Lemma binv_step s l s' : binv s -> cinv s' -> cv_label s l = Some s' -> binv s'.
Proof.
  intros [b Hb] I H. destruct (one_thread s l s' H) as [t Ht].
  assert (Ho : forall u, u <> t -> (busy s' u <-> busy s u)) by (intros u Hu; unfold busy; by rewrite Ht).
  destruct (busy_dec s' t) as [Hbt|Hbt].
  - exists (Some t). intros u. split; [intros Hu; f_equal; by apply (i_one s' I)|by intros [= <-]].
  - exists (match b with Some x => if Nat.eqb x t then None else b | None => None end). intros u.
    destruct (decide (u = t)) as [->|Hu].
    + split; [done|]. destruct b as [x|]; [|done]. destruct (Nat.eqb_spec x t); [done|congruence].
    + rewrite Ho, Hb by done. destruct b as [x|]; [|done]. destruct (Nat.eqb_spec x t) as [->|]; [|done].
      split; [congruence|done].
Qed.

Record full (s : cst) : Prop := mkFull { f_c : cinv s; f_h : hinv s; f_b : binv s }.
Lemma full_step s l s' : full s -> calm s l -> cv_label s l = Some s' -> full s'.
Proof.
  intros [] Hc H. pose proof (cinv_step s l s' f_c0 Hc H). constructor; [done|by eapply hinv_step|by eapply binv_step].
Qed.
Lemma full_qr s s' : full s -> qr s s' -> full s'.
Proof.
  intros F (tr & _ & H2 & <-). revert s F H2. induction tr as [|l tr IH]; intros s F H2; [done|]. destruct H2 as [Hc H2].
  cbn. apply IH; [|done]. destruct (cv_label s l) eqn:E; [|done]. eapply full_step; [done|by apply Hc|done].
Qed.
Lemma full_reach tr : calways calm cv_init tr -> full (cv_reach tr).
Proof.
  unfold cv_reach. intros H.
  assert (F : full cv_init).
  { constructor; [apply cinv_init|apply hinv_init|]. exists None. intros u. unfold busy. cbn. done. }
  revert F H. generalize cv_init. induction tr as [|l tr IH]; intros s F H2; [done|]. destruct H2 as [Hc H2].
  cbn. apply IH; [|done]. destruct (cv_label s l) eqn:E; [|done]. eapply full_step; [done|by apply Hc|done].
Qed.

(** The thread at the list can leave it; nobody else is affected. *)
Definition same_but (s s' : cst) (v : nat) : Prop :=
  v_mtx s' = v_mtx s /\ (forall x, v_rq s' x = v_rq s x) /\ (forall x, x <> v -> v_pc s' x = v_pc s x).
Lemma write_step s v :
  cinv s -> busy s v -> exists s', qr s s' /\ (forall u, ~ busy s' u) /\ same_but s s' v /\ v_pc s' v <> CElse.
Proof.
  intros I Hb. pose proof (only_busy s v I Hb) as Ho.
  assert (Hc : calm s (ZStep v)).
  { split; [done|]. split; [|done]. cbn. unfold busy in Hb. by destruct (v_pc s v). }
  assert (Hall : forall s', (forall x, x <> v -> v_pc s' x = v_pc s x) -> ~ busy s' v -> forall u, ~ busy s' u).
  { intros s' Hx Hv u Hu. destruct (decide (u = v)) as [->|Hn]; [done|]. apply Hv.
    exfalso. apply busy_snap in Hu as [w Hu]. rewrite Hx in Hu by done. destruct (Ho u Hn) as [Hs _]. congruence. }
  destruct (v_pc s v) as [| |snap tm|tm|tm|tm|tm|tm|snap tm|snap|snap|l|y l] eqn:E; unfold busy in Hb; rewrite E in Hb; try done.
  - eexists. split; [eapply (qr_one s (ZStep v)); [cbn; unfold cv_thread; rewrite E; reflexivity|done|done]|].
    cbn. split; [|split; [split; [done|split; [done|]]|]].
    + apply Hall; cbn; [intros x Hx; by rewrite cupd_ne|]. unfold busy. cbn. rewrite cupd_eq. by intros [].
    + cbn. intros x Hx. by rewrite cupd_ne.
    + by rewrite cupd_eq.
  - eexists. split; [eapply (qr_one s (ZStep v)); [cbn; unfold cv_thread; rewrite E; reflexivity|done|done]|].
    cbn. split; [|split; [split; [done|split; [done|]]|]].
    + apply Hall; cbn; [intros x Hx; by rewrite cupd_ne|]. unfold busy. cbn. rewrite cupd_eq. by intros [].
    + cbn. intros x Hx. by rewrite cupd_ne.
    + by rewrite cupd_eq.
  - destruct snap as [|z snap].
    + eexists. split; [eapply (qr_one s (ZStep v)); [cbn; unfold cv_thread; rewrite E; reflexivity|done|done]|].
      cbn. split; [|split; [split; [done|split; [done|]]|]].
      * apply Hall; cbn; [intros x Hx; by rewrite cupd_ne|]. unfold busy. cbn. rewrite cupd_eq. by intros [].
      * cbn. intros x Hx. by rewrite cupd_ne.
      * by rewrite cupd_eq.
    + eexists. split; [eapply (qr_one s (ZStep v)); [cbn; unfold cv_thread; rewrite E; reflexivity|done|done]|].
      cbn. split; [|split; [split; [done|split; [done|]]|]].
      * apply Hall; cbn; [intros x Hx; by rewrite cupd_ne|]. unfold busy. cbn. rewrite cupd_eq. by intros [].
      * cbn. intros x Hx. by rewrite cupd_ne.
      * by rewrite cupd_eq.
  - eexists. split; [eapply (qr_one s (ZStep v)); [cbn; unfold cv_thread; rewrite E; reflexivity|done|done]|].
    cbn. split; [|split; [split; [done|split; [done|]]|]].
    + apply Hall; cbn; [intros x Hx; by rewrite cupd_ne|]. unfold busy. cbn. rewrite cupd_eq. destruct snap; by intros [].
    + cbn. intros x Hx. by rewrite cupd_ne.
    + rewrite cupd_eq. by destruct snap.
Qed.
Lemma clear s t :
  full s -> ~ busy s t ->
  exists s', qr s s' /\ (forall u, ~ busy s' u) /\ v_mtx s' = v_mtx s /\ (forall x, v_rq s' x = v_rq s x) /\
    v_pc s' t = v_pc s t /\ (forall x, ~ busy s x -> v_pc s' x = v_pc s x).
Proof.
  intros F Hn. destruct (f_b s F) as [[v|] Hb].
  - assert (Hv : busy s v) by (by apply Hb).
    destruct (write_step s v (f_c s F) Hv) as (s' & Hq & Hnb & (Hm & Hr & Hp) & _). exists s'. split; [done|]. split; [done|].
    split; [done|]. split; [done|]. split; [apply Hp; by intros ->|]. intros x Hx. apply Hp. by intros ->.
  - exists s. split; [apply qr_refl|]. split; [|done]. intros u Hu. apply Hb in Hu. done.
Qed.

Lemma calm_step s v : match v_pc s v with CRem0 _ => False | _ => True end -> calm s (ZStep v).
Proof. intros H. split; [done|]. split; [|done]. cbn. by destruct (v_pc s v). Qed.
Lemma calm_step_free s v : (forall u, ~ busy s u) -> calm s (ZStep v).
Proof. intros H. split; [done|]. split; done. Qed.
Lemma calm_run s v : calm s (ZRun v).
Proof. done. Qed.
Lemma calm_unlock s v : calm s (ZUnlock v).
Proof. done. Qed.

Definition others (s s' : cst) (u : nat) : Prop :=
  v_mtx s' = v_mtx s /\ (forall x, x <> u -> v_pc s' x = v_pc s x) /\ v_pc s' u <> CElse.

Lemma makeA_reach l : forall s u t, cinv s -> v_pc s u = CMakeA l -> t ∈ l ->
  exists s', qr s s' /\ v_rq s' t = 1 /\ others s s' u.
Proof.
  induction l as [|x l IH]; intros s u t I E Hin; [by apply elem_of_nil in Hin|].
  set (s1 := mkCV (v_mtx s) (v_w s) (cupd (v_pc s) u (CMakeB x l)) (v_rq s) (cupd (v_tl s) x false) (v_dbg s) (v_ev s) (v_crash s)).
  assert (H1 : cv_label s (ZStep u) = Some s1) by (cbn; unfold cv_thread; by rewrite E).
  assert (C1 : calm s (ZStep u)) by (apply calm_step; by rewrite E).
  pose proof (cinv_step s _ s1 I C1 H1) as I1.
  assert (E1 : v_pc s1 u = CMakeB x l) by (cbn; by rewrite cupd_eq).
  set (s2 := mkCV (v_mtx s1) (v_w s1) (cupd (v_pc s1) u (match l with [] => CIdle | _ => CMakeA l end))
             (cupd (v_rq s1) x (S (v_rq s1 x))) (v_tl s1) (v_dbg s1) (v_ev s1) (v_crash s1)).
  assert (H2 : cv_label s1 (ZStep u) = Some s2) by (cbn [cv_label]; unfold cv_thread; by rewrite E1).
  assert (C2 : calm s1 (ZStep u)) by (apply calm_step; by rewrite E1).
  pose proof (cinv_step s1 _ s2 I1 C2 H2) as I2.
  assert (Q2 : qr s s2).
  { eapply qr_step; [exact H1|done|done|]. eapply qr_one; [exact H2|done|done]. }
  assert (P2 : forall y, y <> u -> v_pc s2 y = v_pc s y).
  { intros y Hy. cbn. by rewrite !cupd_ne by done. }
  destruct (decide (t = x)) as [->|Hx].
  - exists s2. split; [done|]. split.
    + cbn. rewrite cupd_eq. f_equal. eapply (i_mk s I u). rewrite E. by left.
    + split; [done|]. split; [done|]. cbn. rewrite cupd_eq. by destruct l.
  - apply elem_of_cons in Hin as [?|Hin]; [done|].
    assert (E2 : v_pc s2 u = CMakeA l).
    { cbn. rewrite cupd_eq. destruct l; [by apply elem_of_nil in Hin|done]. }
    destruct (IH s2 u t I2 E2 Hin) as (s' & Hq & Hr & Hm & Hp & Hu). exists s'.
    split; [by eapply qr_trans|]. split; [done|]. split; [by rewrite Hm|]. split; [|done].
    intros y Hy. by rewrite Hp, P2.
Qed.
Lemma make_reach s u t : cinv s -> t ∈ mk (v_pc s u) -> exists s', qr s s' /\ v_rq s' t = 1 /\ others s s' u.
Proof.
  intros I Hin. destruct (v_pc s u) as [| |snap tm|tm|tm|tm|tm|tm|snap tm|snap|snap|l|x l] eqn:E; cbn [mk] in Hin;
    try by apply elem_of_nil in Hin.
  - by eapply makeA_reach.
  - set (s2 := mkCV (v_mtx s) (v_w s) (cupd (v_pc s) u (match l with [] => CIdle | _ => CMakeA l end))
             (cupd (v_rq s) x (S (v_rq s x))) (v_tl s) (v_dbg s) (v_ev s) (v_crash s)).
    assert (H2 : cv_label s (ZStep u) = Some s2) by (cbn [cv_label]; unfold cv_thread; by rewrite E).
    assert (C2 : calm s (ZStep u)) by (apply calm_step; by rewrite E).
    pose proof (cinv_step s _ s2 I C2 H2) as I2.
    assert (Q2 : qr s s2) by (eapply qr_one; [exact H2|done|done]).
    assert (P2 : forall y, y <> u -> v_pc s2 y = v_pc s y).
    { intros y Hy. cbn. by rewrite !cupd_ne by done. }
    destruct (decide (t = x)) as [->|Hx].
    + exists s2. split; [done|]. split.
      * cbn. rewrite cupd_eq. f_equal. eapply (i_mk s I u). rewrite E. by left.
      * split; [done|]. split; [done|]. cbn. rewrite cupd_eq. by destruct l.
    + apply elem_of_cons in Hin as [?|Hin]; [done|].
      assert (E2 : v_pc s2 u = CMakeA l).
      { cbn. rewrite cupd_eq. destruct l; [by apply elem_of_nil in Hin|done]. }
      destruct (makeA_reach l s2 u t I2 E2 Hin) as (s' & Hq & Hr & Hm & Hp & Hu). exists s'.
      split; [by eapply qr_trans|]. split; [done|]. split; [by rewrite Hm|]. split; [|done].
      intros y Hy. by rewrite Hp, P2.
Qed.

(** The holder of the mutex is not blocked for something else. *)
Definition live (s : cst) : Prop := forall h, v_mtx s = Some h -> v_pc s h <> CElse.
Lemma live_others s s' u : live s -> others s s' u -> live s'.
Proof.
  intros L (Hm & Hp & Hu) h Hh. destruct (decide (h = u)) as [->|Hn]; [done|]. rewrite Hp by done. apply L. by rewrite <- Hm.
Qed.

Definition wk (p : cpc) : nat :=
  match p with
  | CIdle => 1 | CWExit _ => 1 | CPushW _ _ => 2 | CRemW _ _ => 2 | CRem0 _ => 3
  | CMakeA l => 2 + 2 * length l | CMakeB _ l => 3 + 2 * length l
  | CSigW _ => 6 | CBcW w => 4 + 2 * length w | _ => 0 end.

(** The mutex can become free without a change at [t]. *)
Lemma free_mutex t : forall n s, full s -> live s -> (forall h, v_mtx s = Some h -> h <> t /\ wk (v_pc s h) <= n) -> ~ busy s t ->
  exists s', qr s s' /\ v_mtx s' = None /\ v_pc s' t = v_pc s t.
Proof.
  induction n as [|n IH]; intros s F L Hn Hb.
  - destruct (v_mtx s) as [h|] eqn:Em; [|exists s; split; [apply qr_refl|done]].
    exfalso. destruct (Hn h eq_refl) as [_ Hk]. specialize (L h Em). pose proof (i_hold s (f_c s F) h) as Hh. rewrite Em in Hh.
    destruct (v_pc s h); cbn in *; try lia; done.
  - destruct (v_mtx s) as [h|] eqn:Em; [|exists s; split; [apply qr_refl|done]].
    destruct (Hn h eq_refl) as [Hht Hk]. specialize (L h Em). pose proof (i_hold s (f_c s F) h) as Hh. rewrite Em in Hh.
    assert (Hgo : forall s0 l s', qr s s0 -> full s0 -> v_pc s0 t = v_pc s t -> cv_label s0 l = Some s' -> onward l -> calm s0 l ->
              v_mtx s' = Some h -> v_pc s' h <> CElse -> wk (v_pc s' h) <= n -> v_pc s' t = v_pc s0 t ->
              exists s'', qr s s'' /\ v_mtx s'' = None /\ v_pc s'' t = v_pc s t).
    { intros s0 l s' Q0 F0 P0 H Ho Hc Hm' He' Hk' Hp'. destruct (IH s') as (s'' & Q & M & P).
      - by eapply full_step.
      - intros h' Hh'. assert (h' = h) as -> by congruence. done.
      - intros h' Hh'. assert (h' = h) as -> by congruence. done.
      - unfold busy. rewrite Hp', P0. exact Hb.
      - exists s''. split; [eapply qr_trans; [exact Q0|]; eapply qr_step; eauto|]. split; [done|]. congruence. }
    assert (Hend : forall l s', cv_label s l = Some s' -> onward l -> calm s l -> v_mtx s' = None -> v_pc s' t = v_pc s t ->
              exists s'', qr s s'' /\ v_mtx s'' = None /\ v_pc s'' t = v_pc s t).
    { intros l s' H Ho Hc Hm' Hp'. exists s'. split; [by eapply qr_one|done]. }
    assert (Hth : t <> h) by done.
    destruct (v_pc s h) as [| |snap tm|tm|tm|tm|tm|tm|snap tm|snap|snap|[|y l]|y l] eqn:E; cbn in Hh, Hk; try done.
    + (* CIdle *) eapply (Hend (ZUnlock h)); [cbn; rewrite E, Em, Nat.eqb_refl; reflexivity|done|apply calm_unlock|done|].
      cbn. by rewrite cupd_ne.
    + (* CPushW *) eapply (Hgo s (ZStep h)); [apply qr_refl|done|done|cbn; unfold cv_thread; rewrite E; reflexivity|done
        |apply calm_step; by rewrite E|done|cbn; by rewrite cupd_eq|cbn; rewrite cupd_eq; cbn; lia|cbn; by rewrite cupd_ne].
    + (* CWExit *) eapply (Hend (ZStep h)); [cbn; unfold cv_thread; rewrite E; reflexivity|done|apply calm_step; by rewrite E|done|].
      cbn. by rewrite cupd_ne.
    + (* CRem0 *) assert (Hbh : ~ busy s h) by (unfold busy; rewrite E; by intros []).
      destruct (clear s t F Hb) as (s0 & Q0 & N0 & M0 & R0 & P0 & X0).
      assert (E0 : v_pc s0 h = CRem0 tm) by (by rewrite X0).
      assert (F0 : full s0) by (by eapply full_qr).
      eapply (Hgo s0 (ZStep h)); [done|done|done|cbn; unfold cv_thread; rewrite E0; reflexivity|done
        |by apply calm_step_free|by rewrite M0|cbn; by rewrite cupd_eq|cbn; rewrite cupd_eq; cbn; lia|cbn; by rewrite cupd_ne].
    + (* CRemW *) eapply (Hgo s (ZStep h)); [apply qr_refl|done|done|cbn; unfold cv_thread; rewrite E; reflexivity|done
        |apply calm_step; by rewrite E|done|cbn; by rewrite cupd_eq|cbn; rewrite cupd_eq; cbn; lia|cbn; by rewrite cupd_ne].
    + (* CSigW *) destruct snap as [|z snap];
      (eapply (Hgo s (ZStep h)); [apply qr_refl|done|done|cbn; unfold cv_thread; rewrite E; reflexivity|done
        |apply calm_step; by rewrite E|done|cbn; by rewrite cupd_eq|cbn; rewrite cupd_eq; cbn; lia|cbn; by rewrite cupd_ne]).
    + (* CBcW *) eapply (Hgo s (ZStep h)); [apply qr_refl|done|done|cbn; unfold cv_thread; rewrite E; reflexivity|done
        |apply calm_step; by rewrite E|done|cbn; rewrite cupd_eq; by destruct snap| |cbn; by rewrite cupd_ne].
      cbn. rewrite cupd_eq. destruct snap; cbn [wk]; [lia|]. rewrite reverse_length. cbn in *. lia.
    + (* CMakeA [] *) eapply (Hgo s (ZStep h)); [apply qr_refl|done|done|cbn; unfold cv_thread; rewrite E; reflexivity|done
        |apply calm_step; by rewrite E|done|cbn; by rewrite cupd_eq|cbn; rewrite cupd_eq; cbn; lia|cbn; by rewrite cupd_ne].
    + (* CMakeA *) eapply (Hgo s (ZStep h)); [apply qr_refl|done|done|cbn; unfold cv_thread; rewrite E; reflexivity|done
        |apply calm_step; by rewrite E|done|cbn; by rewrite cupd_eq|cbn; rewrite cupd_eq; cbn; cbn in Hk; lia|cbn; by rewrite cupd_ne].
    + (* CMakeB *) eapply (Hgo s (ZStep h)); [apply qr_refl|done|done|cbn; unfold cv_thread; rewrite E; reflexivity|done
        |apply calm_step; by rewrite E|done|cbn; rewrite cupd_eq; by destruct l| |cbn; by rewrite cupd_ne].
      cbn. rewrite cupd_eq. destruct l; cbn [wk]; cbn in *; lia.
Qed.

Definition can_return (s : cst) (t : nat) : Prop := exists s', qr s s' /\ waits (v_ev s') t = false.
Lemma cr_step s l s' t : cv_label s l = Some s' -> onward l -> calm s l -> can_return s' t -> can_return s t.
Proof. intros H Ho Hc (s'' & Q & W). exists s''. split; [by eapply qr_step|done]. Qed.
Lemma cr_qr s s' t : qr s s' -> can_return s' t -> can_return s t.
Proof. intros Q (s'' & Q' & W). exists s''. split; [by eapply qr_trans|done]. Qed.

Lemma cr_remW s t snap tm : v_pc s t = CRemW snap tm -> can_return s t.
Proof.
  intros E. eexists. split; [eapply (qr_one s (ZStep t)); [cbn; unfold cv_thread; rewrite E; reflexivity|done|apply calm_step; by rewrite E]|].
  cbn. by rewrite Nat.eqb_refl.
Qed.
Lemma cr_rem0 s t tm : full s -> v_pc s t = CRem0 tm -> can_return s t.
Proof.
  intros F E. assert (Hb : ~ busy s t) by (unfold busy; rewrite E; by intros []).
  destruct (clear s t F Hb) as (s0 & Q0 & N0 & M0 & R0 & P0 & X0). rewrite E in P0.
  eapply cr_qr; [exact Q0|]. eapply (cr_step s0 (ZStep t)); [cbn; unfold cv_thread; rewrite P0; reflexivity|done|by apply calm_step_free|].
  eapply cr_remW. cbn. by rewrite cupd_eq.
Qed.
Lemma cr_enter s t tm : full s -> live s -> v_pc s t = CWEnter tm -> can_return s t.
Proof.
  intros F L E. assert (Hb : ~ busy s t) by (unfold busy; rewrite E; by intros []).
  destruct (free_mutex t (match v_mtx s with Some h => wk (v_pc s h) | None => 0 end) s F L) as (s' & Q & M & P).
  - intros h Hh. rewrite Hh. split; [|lia]. intros ->. pose proof (i_hold s (f_c s F) t) as H. rewrite E in H. done.
  - done.
  - eapply cr_qr; [exact Q|]. rewrite E in P. pose proof (full_qr s s' F Q) as F'.
    assert (H : cv_label s' (ZStep t) = Some (mkCV (Some t) (v_w s') (cupd (v_pc s') t (CRem0 tm)) (v_rq s') (v_tl s') (v_dbg s') (v_ev s') (v_crash s')))
      by (cbn; unfold cv_thread; by rewrite P, M).
    assert (C : calm s' (ZStep t)) by (apply calm_step; by rewrite P).
    eapply cr_step; [exact H|done|done|]. eapply cr_rem0; [by eapply full_step|]. cbn. by rewrite cupd_eq.
Qed.
Lemma cr_blocked s t tm : full s -> live s -> v_pc s t = CWBlocked tm -> v_rq s t = 1 -> can_return s t.
Proof.
  intros F L E R. eapply (cr_step s (ZRun t)); [cbn; rewrite R, E; reflexivity|done|apply calm_run|].
  eapply cr_enter.
  - eapply (full_step s (ZRun t)); [done|apply calm_run|]. cbn. rewrite R, E. reflexivity.
  - intros h Hh. cbn in *. upd h t; [done|]. by apply L.
  - cbn. by rewrite cupd_eq.
Qed.
Lemma cr_block s t tm : full s -> live s -> v_pc s t = CWBlock tm -> v_rq s t = 1 -> can_return s t.
Proof.
  intros F L E R. assert (C : calm s (ZStep t)) by (apply calm_step; by rewrite E).
  eapply (cr_step s (ZStep t)); [cbn; unfold cv_thread; rewrite E; reflexivity|done|done|].
  eapply cr_blocked.
  - eapply (full_step s (ZStep t)); [done|done|]. cbn. unfold cv_thread. rewrite E. reflexivity.
  - intros h Hh. cbn in *. upd h t; [done|]. by apply L.
  - cbn. by rewrite cupd_eq.
  - done.
Qed.
Lemma cr_exit s t tm : full s -> v_pc s t = CWExit tm -> v_rq s t = 1 -> can_return s t.
Proof.
  intros F E R. assert (C : calm s (ZStep t)) by (apply calm_step; by rewrite E).
  eapply (cr_step s (ZStep t)); [cbn; unfold cv_thread; rewrite E; reflexivity|done|done|].
  eapply cr_block.
  - eapply (full_step s (ZStep t)); [done|done|]. cbn. unfold cv_thread. rewrite E. reflexivity.
  - intros h Hh. done.
  - cbn. by rewrite cupd_eq.
  - done.
Qed.
Lemma cr_wait1 s t : full s -> live s -> waitph (v_pc s t) -> v_rq s t = 1 -> can_return s t.
Proof.
  intros F L W R. destruct (v_pc s t) eqn:E; try done; [by eapply cr_exit|by eapply cr_block|by eapply cr_blocked].
Qed.
Lemma cr_mk s t u : full s -> live s -> t ∈ mk (v_pc s u) -> can_return s t.
Proof.
  intros F L Hin. destruct (i_mk s (f_c s F) u t Hin) as (W & _ & _).
  destruct (make_reach s u t (f_c s F) Hin) as (s' & Q & R & O). eapply cr_qr; [exact Q|].
  apply cr_wait1; [by eapply full_qr|by eapply live_others| |done].
  destruct O as (_ & P & _). rewrite P; [done|]. intros ->. destruct (v_pc s u); try done; by apply elem_of_nil in Hin.
Qed.

Lemma woken_returns s t : full s -> live s -> waits (v_ev s) t = true -> t ∉ sleepers (v_ev s) -> can_return s t.
Proof.
  intros F L W Hs. rewrite (proj2 (f_h s F t)) in W. pose proof (f_c s F) as I.
  assert (Hw : waitph (v_pc s t) -> can_return s t).
  { intros Wp. destruct (i_cov s I t Wp) as [Hin|[[u Hu]|R]]; [|by eapply cr_mk|by apply cr_wait1].
    destruct (f_b s F) as [b Hb].
    assert (Hsl0 : (forall u, shift u (v_pc s u) (v_w s) = None) -> can_return s t).
    { intros H. exfalso. apply Hs. by rewrite (i_sl0 s I H). }
    destruct b as [u|].
    2: { apply Hsl0. intros u. destruct (shift u (v_pc s u) (v_w s)) eqn:E'; [|done]. apply shift_busy, Hb in E'. done. }
    assert (Hbu : busy s u) by (by apply Hb).
    pose proof (only_busy s u I Hbu) as Ho. pose proof (i_sl1 s I u) as Hsl.
    pose proof (i_snap s I u) as Hsn. 
    assert (Hstep : forall s', cv_label s (ZStep u) = Some s' -> (forall h, h <> u -> v_pc s' h = v_pc s h) -> v_mtx s' = v_mtx s ->
              v_pc s' u <> CElse -> t ∈ mk (v_pc s' u) -> can_return s t).
    { intros s' H P M Hc' Hm. assert (C : calm s (ZStep u)) by (apply calm_step; unfold busy in Hbu; by destruct (v_pc s u)).
      eapply cr_step; [exact H|done|done|]. eapply cr_mk; [by eapply full_step| |exact Hm].
      eapply live_others; [exact L|]. split; [done|]. split; [done|exact Hc']. }
    unfold busy in Hbu. destruct (v_pc s u) as [| |snap tm|tm|tm|tm|tm|tm|snap tm|snap|snap|l|y l] eqn:E; try done.
    - exfalso. apply Hs. rewrite (Hsl (u :: v_w s)); [by right|done].
    - apply Hsl0. intros x. destruct (decide (x = u)) as [->|Hx]; [by rewrite E|]. by apply Ho.
    - assert (snap = v_w s) as -> by (by apply Hsn). specialize (Hsl (tail (v_w s)) eq_refl). rewrite Hsl in Hs.
      destruct (v_w s) as [|z w] eqn:Ew; [by apply elem_of_nil in Hin|]. apply elem_of_cons in Hin as [->|Hin]; [|done].
      eapply Hstep; [cbn; unfold cv_thread; rewrite E; reflexivity| | | |]; cbn.
      + intros h Hh. by rewrite cupd_ne.
      + done.
      + by rewrite cupd_eq.
      + rewrite cupd_eq. cbn. by left.
    - assert (snap = v_w s) as -> by (by apply Hsn).
      eapply Hstep; [cbn; unfold cv_thread; rewrite E; reflexivity| | | |]; cbn.
      + intros h Hh. by rewrite cupd_ne.
      + done.
      + rewrite cupd_eq. by destruct (v_w s).
      + rewrite cupd_eq. destruct (v_w s) eqn:Ew; [by apply elem_of_nil in Hin|]. cbn [mk]. by rewrite elem_of_reverse. }
  destruct (v_pc s t) as [| |snap tm|tm|tm|tm|tm|tm|snap tm|snap|snap|l|y l] eqn:E; try done; try (by apply Hw).
  - exfalso. apply Hs. rewrite (i_sl1 s I t (t :: v_w s)); [by left|]. by rewrite E.
  - by eapply cr_enter.
  - by eapply cr_rem0.
  - by eapply cr_remW.
Qed.
