From Verif Require Import Base LwpModel LwpSpec.

Lemma lupd_eq {A} (f : nat -> A) i x : lupd f i x i = x.
Proof. unfold lupd. by rewrite Nat.eqb_refl. Qed.
Lemma lupd_ne {A} (f : nat -> A) i j x : j <> i -> lupd f i x j = f j.
Proof. intros H. unfold lupd. by destruct (Nat.eqb_spec j i). Qed.
Lemma permit_un l t x : permit (EUnpark x :: l) t = if Nat.eqb x t then true else permit l t.
Proof. done. Qed.
Lemma permit_ret l t x : permit (ERet x :: l) t = if Nat.eqb x t then false else permit l t.
Proof. done. Qed.

Definition inpark (p : lpc) : bool := match p with LParkA | LParkB | LParkR | LBlocked BPark => true | _ => false end.
Definition waits (p : lpc) : bool := match p with LParkB | LBlocked BPark => true | _ => false end.
Definition making (s : lst) (t : nat) : Prop := exists u ts k, l_ex s u = true /\ l_pc s u = LMake t ts k.

Record linv (s : lst) : Prop := {
  li_st : forall t, l_ex s t = true -> l_st s t = if inpark (l_pc s t) || permit (l_ev s) t then 1%N else 2%N;
  li_no : forall t, l_ex s t = false -> l_pc s t = LIdle /\ permit (l_ev s) t = false;
  li_make : forall u t ts k, l_pc s u = LMake t ts k -> l_ex s t = true /\ l_thr s t = t;
  li_wake : forall t, waits (l_pc s t) = true -> permit (l_ev s) t = true -> 0 < l_rq s t \/ making s t;
  li_a : forall t, l_pc s t = LParkA -> permit (l_ev s) t = true }.

(** A change of the program counter of [u] alone, outside park. *)
Lemma linv_pc s u p : linv s -> l_ex s u = true -> inpark p = inpark (l_pc s u) -> (p = LParkA -> l_pc s u = LParkA) ->
  (waits p = true -> waits (l_pc s u) = true) -> (forall t ts k, p <> LMake t ts k) -> (forall t ts k, l_pc s u <> LMake t ts k) ->
  linv (wl_pc s u p).
Proof.
  intros [A B C D E] X I1 I2 I3 I4 I5. split; cbn.
  - intros t Ht. rewrite (A t Ht). destruct (decide (t = u)) as [->|Nt]; [by rewrite lupd_eq, I1|by rewrite lupd_ne].
  - intros t Ht. rewrite lupd_ne; [by apply B|]. congruence.
  - intros v t ts k. destruct (decide (v = u)) as [->|Nv]; [rewrite lupd_eq; intros H; by apply I4 in H|rewrite lupd_ne by done; apply C].
  - intros t W P.
    assert (M : making s t -> making (wl_pc s u p) t).
    { intros (v & ts & k & H1 & H2). exists v, ts, k. split; [done|]. cbn. rewrite lupd_ne; [done|]. intros ->. by apply I5 in H2. }
    destruct (decide (t = u)) as [->|Nt].
    + rewrite lupd_eq in W. destruct (D u (I3 W) P); auto.
    + rewrite lupd_ne in W by done. destruct (D t W P); auto.
  - intros t. destruct (decide (t = u)) as [->|Nt]; [rewrite lupd_eq; intros H; apply E, I2, H|rewrite lupd_ne by done; apply E].
Qed.
Lemma idle_inv s u : l_idle s u = true -> l_ex s u = true /\ l_pc s u = LIdle.
Proof. unfold l_idle. destruct (l_ex s u); [|done]. by destruct (l_pc s u). Qed.

Lemma linv_step s l s' : linv s -> noted s l -> l_crash s = false -> l_label s l = Some s' -> l_crash s' = false -> linv s'.
Proof.
  intros I NT Cr L C'. unfold l_label in L. rewrite Cr in L. destruct l as [u|u ts|u b o|u|u|u v|u].
  - destruct (l_ex s u) eqn:Ex; [|done]. unfold l_step in L. destruct (l_pc s u) as [|[|t ts] k|t ts k|b| | | |b|v] eqn:P; try done.
    + destruct k as [|b]; injection L as <-; apply linv_pc; rewrite ?P; done.
    + destruct (l_ex s t) eqn:Et; cbn [negb] in L; [|by injection L as <-].
      assert (TH : l_thr s t = t) by (apply NT; [exists u, ts, k; done|done]).
      destruct I as [A B C D E].
      assert (ST : forall t', l_ex s t' = true -> forall p, inpark p = false ->
        lupd (l_st s) t 1%N t' = if inpark (lupd (l_pc s) u p t') || (if Nat.eqb t t' then true else permit (l_ev s) t') then 1%N else 2%N).
      { intros t' Ht p Hp. destruct (Nat.eqb_spec t t') as [<-|Ne]; [rewrite lupd_eq, orb_true_r; done|].
        rewrite lupd_ne by done. rewrite (A t' Ht). destruct (decide (t' = u)) as [->|Nt]; [rewrite lupd_eq, P, Hp; done|by rewrite lupd_ne]. }
      destruct (N.eqb_spec (l_st s t) MPARKED) as [E1|E1]; injection L as <-; split; cbn [wl_pc wl_ev wl_st l_ex l_st l_thr l_pc l_rq l_ev].
      * intros t' Ht. rewrite permit_un. by apply ST.
      * intros t' Ht. rewrite permit_un. destruct (Nat.eqb_spec t t') as [<-|Ne]; [congruence|].
        rewrite lupd_ne by congruence. by apply B.
      * intros v t' ts' k'. destruct (decide (v = u)) as [->|Nv]; [rewrite lupd_eq; intros [= -> _ _]; done|rewrite lupd_ne by done; apply C].
      * intros t' W. destruct (decide (t' = u)) as [->|Nt]; [rewrite lupd_eq in W; done|]. rewrite lupd_ne in W by done.
        rewrite permit_un. destruct (Nat.eqb_spec t t') as [<-|Ne].
        -- intros _. right. exists u, ts, k. split; [done|]. cbn. by rewrite lupd_eq.
        -- intros Pm. destruct (D t' W Pm) as [|(v & ts' & k' & H1 & H2)]; [by left|]. right. exists v, ts', k'.
           split; [done|]. cbn. rewrite lupd_ne; [done|]. congruence.
      * intros t'. destruct (decide (t' = u)) as [->|Nt]; [by rewrite lupd_eq|]. rewrite lupd_ne by done. intros H.
        rewrite permit_un. destruct (Nat.eqb_spec t t'); [done|by apply E].
      * intros t' Ht. rewrite permit_un. by apply ST.
      * intros t' Ht. rewrite permit_un. destruct (Nat.eqb_spec t t') as [<-|Ne]; [congruence|].
        rewrite lupd_ne by congruence. by apply B.
      * intros v t' ts' k'. destruct (decide (v = u)) as [->|Nv]; [by rewrite lupd_eq|rewrite lupd_ne by done; apply C].
      * intros t' W. destruct (decide (t' = u)) as [->|Nt]; [rewrite lupd_eq in W; done|]. rewrite lupd_ne in W by done.
        rewrite permit_un. destruct (Nat.eqb_spec t t') as [<-|Ne].
        -- intros _. exfalso. apply E1. rewrite (A t Et). destruct (l_pc s t) as [| | | | | | |[]|]; done.
        -- intros Pm. destruct (D t' W Pm) as [|(v & ts' & k' & H1 & H2)]; [by left|]. right. exists v, ts', k'.
           split; [done|]. cbn. rewrite lupd_ne; [done|]. congruence.
      * intros t'. destruct (decide (t' = u)) as [->|Nt]; [by rewrite lupd_eq|]. rewrite lupd_ne by done. intros H.
        rewrite permit_un. destruct (Nat.eqb_spec t t'); [done|by apply E].
    + injection L as <-. destruct I as [A B C D E]. destruct (C u t ts k P) as [Et TH]. rewrite TH.
      split; cbn.
      * intros t' Ht. rewrite (A t' Ht). destruct (decide (t' = u)) as [->|Nt]; [by rewrite lupd_eq, P|by rewrite lupd_ne].
      * intros t' Ht. rewrite lupd_ne by congruence. by apply B.
      * intros v t' ts' k'. destruct (decide (v = u)) as [->|Nv]; [by rewrite lupd_eq|rewrite lupd_ne by done; apply C].
      * intros t' W Pm. destruct (decide (t' = u)) as [->|Nt]; [rewrite lupd_eq in W; done|]. rewrite (lupd_ne (l_pc s)) in W by done.
        destruct (decide (t' = t)) as [->|Ne]; [left; rewrite lupd_eq; lia|]. rewrite lupd_ne by done.
        destruct (D t' W Pm) as [|(v & ts' & k' & H1 & H2)]; [by left|]. right. exists v, ts', k'.
        split; [done|]. cbn. rewrite lupd_ne; [done|]. congruence.
      * intros t'. destruct (decide (t' = u)) as [->|Nt]; [by rewrite lupd_eq|]. rewrite lupd_ne by done. apply E.
    + pose proof (li_st s I u Ex) as SU. rewrite P in SU. cbn [inpark orb] in SU.
      destruct (N.eqb_spec (l_st s u) MUNPARK) as [E1|E1].
      * injection L as <-. destruct I as [A B C D E].
        assert (PU : permit (l_ev s) u = true) by (destruct (permit (l_ev s) u); [done|rewrite SU in E1; done]).
        split; cbn.
        -- intros t' Ht. destruct (decide (t' = u)) as [->|Nt]; [by rewrite !lupd_eq|]. rewrite !lupd_ne by done. by apply A.
        -- intros t' Ht. rewrite lupd_ne by congruence. by apply B.
        -- intros v t' ts' k'. destruct (decide (v = u)) as [->|Nv]; [by rewrite lupd_eq|rewrite lupd_ne by done; apply C].
        -- intros t' W Pm. destruct (decide (t' = u)) as [->|Nt]; [rewrite lupd_eq in W; done|]. rewrite lupd_ne in W by done.
           destruct (D t' W Pm) as [|(v & ts' & k' & H1 & H2)]; [by left|]. right. exists v, ts', k'.
           split; [done|]. cbn. rewrite lupd_ne; [done|]. congruence.
        -- intros t'. destruct (decide (t' = u)) as [->|Nt]; [by intros _|]. rewrite lupd_ne by done. apply E.
      * destruct b; injection L as <-; [done|]. destruct I as [A B C D E].
        assert (PU : permit (l_ev s) u = false) by (destruct (permit (l_ev s) u); [destruct E1; by rewrite SU|done]).
        split; cbn.
        -- intros t' Ht. destruct (decide (t' = u)) as [->|Nt]; [by rewrite !lupd_eq|]. rewrite !lupd_ne by done. by apply A.
        -- intros t' Ht. rewrite lupd_ne by congruence. by apply B.
        -- intros v t' ts' k'. destruct (decide (v = u)) as [->|Nv]; [by rewrite lupd_eq|rewrite lupd_ne by done; apply C].
        -- intros t' W Pm. destruct (decide (t' = u)) as [->|Nt]; [congruence|]. rewrite lupd_ne in W by done.
           destruct (D t' W Pm) as [|(v & ts' & k' & H1 & H2)]; [by left|]. right. exists v, ts', k'.
           split; [done|]. cbn. rewrite lupd_ne; [done|]. congruence.
        -- intros t'. destruct (decide (t' = u)) as [->|Nt]; [by rewrite lupd_eq|]. rewrite lupd_ne by done. apply E.
    + injection L as <-. destruct I as [A B C D E]. split; cbn [wl_pc wl_ev wl_st l_ex l_st l_thr l_pc l_rq l_ev].
      * intros t' Ht. rewrite permit_ret. destruct (Nat.eqb_spec u t') as [<-|Nt]; [by rewrite !lupd_eq|]. rewrite !lupd_ne by done. by apply A.
      * intros t' Ht. rewrite permit_ret. destruct (Nat.eqb_spec u t') as [<-|Nt]; [congruence|]. rewrite !lupd_ne by done. by apply B.
      * intros v t' ts' k'. destruct (decide (v = u)) as [->|Nv]; [by rewrite lupd_eq|rewrite lupd_ne by done; apply C].
      * intros t' W. destruct (decide (t' = u)) as [->|Nt]; [rewrite lupd_eq in W; done|]. rewrite lupd_ne in W by done.
        rewrite permit_ret. destruct (Nat.eqb_spec u t') as [<-|Ne]; [done|]. intros Pm.
        destruct (D t' W Pm) as [|(v & ts' & k' & H1 & H2)]; [by left|]. right. exists v, ts', k'.
        split; [done|]. cbn. rewrite lupd_ne; [done|]. congruence.
      * intros t'. rewrite permit_ret. destruct (Nat.eqb_spec u t') as [<-|Nt]; [by rewrite lupd_eq|]. rewrite lupd_ne by done. apply E.
    + injection L as <-. apply linv_pc; rewrite ?P; done.
    + injection L as <-. destruct I as [A B C D E]. split; cbn [wl_pc wl_ev wl_st l_ex l_st l_thr l_pc l_rq l_ev].
      * intros t' Ht. rewrite permit_ret. destruct (Nat.eqb_spec u t') as [<-|Nt]; [by rewrite !lupd_eq|]. rewrite !lupd_ne by done. by apply A.
      * intros t' Ht. rewrite permit_ret. destruct (Nat.eqb_spec u t') as [<-|Nt]; [congruence|]. rewrite !lupd_ne by done. by apply B.
      * intros v t' ts' k'. destruct (decide (v = u)) as [->|Nv]; [by rewrite lupd_eq|rewrite lupd_ne by done; apply C].
      * intros t' W. destruct (decide (t' = u)) as [->|Nt]; [rewrite lupd_eq in W; done|]. rewrite lupd_ne in W by done.
        rewrite permit_ret. destruct (Nat.eqb_spec u t') as [<-|Ne]; [done|]. intros Pm.
        destruct (D t' W Pm) as [|(v & ts' & k' & H1 & H2)]; [by left|]. right. exists v, ts', k'.
        split; [done|]. cbn. rewrite lupd_ne; [done|]. congruence.
      * intros t'. rewrite permit_ret. destruct (Nat.eqb_spec u t') as [<-|Nt]; [by rewrite lupd_eq|]. rewrite lupd_ne by done. apply E.
    + injection L as <-. assert (I' : linv (wl_pc s u LIdle)) by (apply linv_pc; rewrite ?P; done).
      destruct I' as [A B C D E]. split; cbn in *; try done.
      intros v' t ts k H. destruct (C v' t ts k H) as [C1 C2]. split; [done|].
      destruct (decide (t = v)) as [->|Nt]; [by rewrite lupd_eq|by rewrite lupd_ne].
  - destruct (l_idle s u) eqn:Id; [|done]. apply idle_inv in Id as [X P]. injection L as <-. apply linv_pc; rewrite ?P; done.
  - destruct (l_idle s u) eqn:Id; [|done]. apply idle_inv in Id as [X P]. injection L as <-. apply linv_pc; rewrite ?P; done.
  - destruct (l_idle s u) eqn:Id; [|done]. apply idle_inv in Id as [X P]. injection L as <-. apply linv_pc; rewrite ?P; done.
  - destruct (l_idle s u) eqn:Id; [|done]. apply idle_inv in Id as [X P]. injection L as <-. apply linv_pc; rewrite ?P; done.
  - destruct (l_idle s u) eqn:Id; [|done]. apply idle_inv in Id as [X P]. destruct (l_ex s v) eqn:Ev; cbn in L; [done|].
    destruct (Nat.eqb_spec v 0) as [|Nv]; [done|]. cbn in L. injection L as <-.
    assert (I' : linv (wl_pc s u (LAssign v))) by (apply linv_pc; rewrite ?P; done).
    destruct (li_no s I v Ev) as [PV MV]. assert (NU : u <> v) by congruence.
    destruct I' as [A B C D E]. split; cbn in *.
    + intros t Ht. destruct (decide (t = v)) as [->|Nt].
      * rewrite lupd_eq. rewrite lupd_ne by done. by rewrite PV, MV.
      * rewrite (lupd_ne (l_st s)) by done. rewrite lupd_ne in Ht by done. by apply A.
    + intros t Ht. destruct (decide (t = v)) as [->|Nt]; [by rewrite lupd_eq in Ht|]. rewrite lupd_ne in Ht by done. by apply B.
    + intros v' t ts k H. destruct (C v' t ts k H) as [C1 C2].
      assert (t <> v) by congruence. by rewrite !lupd_ne.
    + intros t W Pm. destruct (D t W Pm) as [|(v' & ts' & k' & H1 & H2)]; [by left|]. right. exists v', ts', k'. split; [|done].
      cbn. destruct (decide (v' = v)) as [->|]; [by rewrite lupd_eq|by rewrite lupd_ne].
    + done.
  - destruct (l_pc s u) as [| | | | | | |b|] eqn:P; try done. 
    assert (Ex : l_ex s u = true).
    { destruct (l_ex s u) eqn:X; [done|]. apply (li_no s I) in X as [X _]. congruence. }
    destruct (l_rq s u) as [|k] eqn:R; [by destruct b|].
    destruct I as [A B C D E]. destruct b; injection L as <-; [| done |].
    + split; cbn.
      * intros t' Ht. rewrite (A t' Ht). destruct (decide (t' = u)) as [->|Nt]; [by rewrite !lupd_eq, P|]. by rewrite !lupd_ne.
      * intros t' Ht. rewrite lupd_ne by congruence. by apply B.
      * intros v t' ts' k'. destruct (decide (v = u)) as [->|Nv]; [by rewrite lupd_eq|rewrite lupd_ne by done; apply C].
      * intros t' W Pm. destruct (decide (t' = u)) as [->|Nt]; [rewrite lupd_eq in W; done|]. rewrite lupd_ne in W by done.
        rewrite lupd_ne by done.
        destruct (D t' W Pm) as [|(v & ts' & k' & H1 & H2)]; [by left|]. right. exists v, ts', k'.
        split; [done|]. cbn. rewrite lupd_ne; [done|]. congruence.
      * intros t'. destruct (decide (t' = u)) as [->|Nt]; [by rewrite lupd_eq|]. rewrite lupd_ne by done. apply E.
    + split; cbn.
      * intros t' Ht. rewrite (A t' Ht). destruct (decide (t' = u)) as [->|Nt]; [by rewrite !lupd_eq, P|]. by rewrite !lupd_ne.
      * intros t' Ht. rewrite lupd_ne by congruence. by apply B.
      * intros v t' ts' k'. destruct (decide (v = u)) as [->|Nv]; [by rewrite lupd_eq|rewrite lupd_ne by done; apply C].
      * intros t' W Pm. destruct (decide (t' = u)) as [->|Nt]; [rewrite lupd_eq in W; done|]. rewrite lupd_ne in W by done.
        rewrite lupd_ne by done.
        destruct (D t' W Pm) as [|(v & ts' & k' & H1 & H2)]; [by left|]. right. exists v, ts', k'.
        split; [done|]. cbn. rewrite lupd_ne; [done|]. congruence.
      * intros t'. destruct (decide (t' = u)) as [->|Nt]; [by rewrite lupd_eq|]. rewrite lupd_ne by done. apply E.
Qed.
Lemma linv_init : linv l_init.
Proof.
  split; cbn; try done.
Qed.
Lemma crash_run tr : forall s, l_crash s = true -> l_run s tr = s.
Proof.
  induction tr as [|l tr IH]; intros s C; [done|]. cbn [l_run]. unfold l_label at 1. rewrite C. by apply IH.
Qed.
Lemma linv_run tr : forall s, linv s -> l_crash s = false -> always noted s tr -> l_crash (l_run s tr) = false -> linv (l_run s tr).
Proof.
  induction tr as [|l tr IH]; intros s I C NN C'; [done|]. destruct NN as [N1 N2]. cbn [l_run] in *.
  destruct (l_label s l) as [s'|] eqn:L; unfold default, from_option, id in *; [|by apply IH].
  destruct (l_crash s') eqn:C2; [rewrite crash_run in C' by done; congruence|].
  apply IH; [|done|done|done]. by eapply linv_step.
Qed.

(** ** With one unpark at a time *)
Record pinv (s : lst) : Prop := {
  pi_rq : forall t, 0 < l_rq s t -> l_rq s t = 1 /\ permit (l_ev s) t = true /\ waits (l_pc s t) = true;
  pi_mk : forall t u ts k, l_pc s u = LMake t ts k -> l_rq s t = 0 /\ permit (l_ev s) t = true /\ waits (l_pc s t) = true /\
      forall u' ts' k', l_pc s u' = LMake t ts' k' -> u' = u;
  pi_r : forall t, l_pc s t = LParkR -> permit (l_ev s) t = true;
  pi_ret : forall l1 t l2, l_ev s = l1 ++ ERet t :: l2 -> permit l2 t = true }.

Lemma pinv_pc s u p : pinv s -> (l_pc s u = LParkB \/ waits (l_pc s u) = false) -> (l_pc s u = LParkB -> waits p = true) ->
  p <> LParkR -> (forall t ts k, p <> LMake t ts k) -> (forall t ts k, l_pc s u <> LMake t ts k) -> pinv (wl_pc s u p).
Proof.
  intros [A B C D] W1 W2 NR N1 N2.
  assert (WW : forall t, waits (l_pc s t) = true -> waits (lupd (l_pc s) u p t) = true).
  { intros t H. destruct (decide (t = u)) as [->|Nt]; [rewrite lupd_eq; apply W2; destruct W1 as [|W1]; [done|congruence]|by rewrite lupd_ne]. }
  split; cbn.
  - intros t H. destruct (A t H) as (A1 & A2 & A3). auto.
  - intros t v ts k H. destruct (decide (v = u)) as [->|Nv]; [rewrite lupd_eq in H; by apply N1 in H|]. rewrite lupd_ne in H by done.
    destruct (B t v ts k H) as (B1 & B2 & B3 & B4). split; [done|]. split; [done|]. split; [auto|].
    intros u' ts' k' H'. destruct (decide (u' = u)) as [->|Nu]; [rewrite lupd_eq in H'; by apply N1 in H'|]. rewrite lupd_ne in H' by done. eauto.
  - intros t H. destruct (decide (t = u)) as [->|Nt]; [rewrite lupd_eq in H; done|]. rewrite lupd_ne in H by done. auto.
  - exact D.
Qed.
Lemma ev_cons_ret (P : nat -> list lev -> Prop) e l : (forall l1 t l2, l = l1 ++ ERet t :: l2 -> P t l2) ->
  (forall t, e = ERet t -> P t l) -> forall l1 t l2, e :: l = l1 ++ ERet t :: l2 -> P t l2.
Proof.
  intros H1 H2 l1 t l2 E. destruct l1 as [|x l1]; cbn in E; injection E as -> E; [subst; by apply H2|eauto].
Qed.
Lemma pinv_return s u p : pinv s -> (p = LParkA \/ p = LParkR) -> l_pc s u = p -> permit (l_ev s) u = true ->
  pinv (wl_pc (wl_ev (wl_st s u MPARK) (ERet u)) u LIdle).
Proof.
  intros [A B C D] Pp P PU.
  assert (WU : waits (l_pc s u) = false) by (rewrite P; by destruct Pp as [-> | ->]).
  assert (NM : forall t ts k, l_pc s u <> LMake t ts k) by (intros t ts k; rewrite P; by destruct Pp as [-> | ->]).
  split; cbn [wl_pc wl_ev wl_st l_ex l_st l_thr l_pc l_rq l_ev].
  - intros t H. destruct (A t H) as (A1 & A2 & A3). assert (t <> u) by congruence. rewrite permit_ret.
    destruct (Nat.eqb_spec u t); [congruence|]. by rewrite lupd_ne.
  - intros t v ts k H. destruct (decide (v = u)) as [->|Nv]; [by rewrite lupd_eq in H|]. rewrite lupd_ne in H by done.
    destruct (B t v ts k H) as (B1 & B2 & B3 & B4). assert (t <> u) by congruence. split; [done|]. rewrite permit_ret.
    destruct (Nat.eqb_spec u t); [congruence|]. split; [done|]. split; [by rewrite lupd_ne|].
    intros u' ts' k' H'. destruct (decide (u' = u)) as [->|Nu]; [by rewrite lupd_eq in H'|]. rewrite lupd_ne in H' by done. eauto.
  - intros t H. destruct (decide (t = u)) as [->|Nt]; [by rewrite lupd_eq in H|]. rewrite lupd_ne in H by done.
    rewrite permit_ret. destruct (Nat.eqb_spec u t); [congruence|auto].
  - apply (ev_cons_ret (fun t l2 => permit l2 t = true)); [exact D|]. by intros t [= ->].
Qed.
Lemma pinv_step s l s' : linv s -> pinv s -> noted s l -> polite s l -> l_crash s = false -> l_label s l = Some s' -> l_crash s' = false -> pinv s'.
Proof.
  intros I PI NT PO Cr L C'. unfold l_label in L. rewrite Cr in L. destruct l as [u|u ts|u b o|u|u|u v|u].
  - destruct (l_ex s u) eqn:Ex; [|done]. unfold l_step in L. destruct (l_pc s u) as [|[|t ts] k|t ts k|b| | | |b|v] eqn:P; try done.
    + destruct k as [|b]; injection L as <-; apply pinv_pc; rewrite ?P; auto; done.
    + destruct (l_ex s t) eqn:Et; cbn [negb] in L; [|by injection L as <-].
      assert (PF : permit (l_ev s) t = false) by (apply PO; exists u, ts, k; done).
      pose proof (li_st s I t Et) as ST. rewrite PF, orb_false_r in ST.
      destruct PI as [A B C D].
      assert (WW : forall p t', waits (l_pc s t') = true -> waits (lupd (l_pc s) u p t') = true).
      { intros p t' H. destruct (decide (t' = u)) as [->|Nt]; [by rewrite P in H|by rewrite lupd_ne]. }
      assert (R0 : l_rq s t = 0).
      { destruct (l_rq s t) eqn:R; [done|]. destruct (A t) as (_ & X & _); [lia|congruence]. }
      assert (NOM : forall v ts' k', l_pc s v <> LMake t ts' k').
      { intros v ts' k' H. apply B in H as (_ & X & _). congruence. }
      destruct (N.eqb_spec (l_st s t) MPARKED) as [E1|E1]; injection L as <-; split; cbn [wl_pc wl_ev wl_st l_ex l_st l_thr l_pc l_rq l_ev].
      * intros t' H. destruct (A t' H) as (A1 & A2 & A3). rewrite permit_un. destruct (Nat.eqb_spec t t'); auto.
      * assert (WT : waits (l_pc s t) = true).
        { destruct (l_pc s t) as [| | | | | | |[]|] eqn:PT; cbn in ST; rewrite ST in E1; try done.
          - apply (li_a s I) in PT. congruence.
          - apply C in PT. congruence. }
        intros t' v ts' k' H. destruct (decide (v = u)) as [->|Nv].
        -- rewrite lupd_eq in H. injection H as <- <- <-. split; [done|]. rewrite permit_un, Nat.eqb_refl. split; [done|].
           split; [auto|]. intros u' ts' k' H'. destruct (decide (u' = u)) as [->|Nu]; [done|]. rewrite lupd_ne in H' by done. by apply NOM in H'.
        -- rewrite lupd_ne in H by done. assert (t' <> t) by (intros ->; by apply NOM in H). destruct (B t' v ts' k' H) as (B1 & B2 & B3 & B4).
           split; [done|]. rewrite permit_un. destruct (Nat.eqb_spec t t'); [done|]. split; [done|]. split; [auto|].
           intros u' ts2 k2 H'. destruct (decide (u' = u)) as [->|Nu]; [rewrite lupd_eq in H'; congruence|]. rewrite lupd_ne in H' by done. eauto.
      * intros t' H. destruct (decide (t' = u)) as [->|Nt]; [by rewrite lupd_eq in H|]. rewrite lupd_ne in H by done.
        rewrite permit_un. destruct (Nat.eqb_spec t t'); auto.
      * by apply (ev_cons_ret (fun t l2 => permit l2 t = true)).
      * intros t' H. destruct (A t' H) as (A1 & A2 & A3). rewrite permit_un. destruct (Nat.eqb_spec t t'); auto.
      * intros t' v ts' k' H. destruct (decide (v = u)) as [->|Nv]; [by rewrite lupd_eq in H|].
        rewrite lupd_ne in H by done. assert (t' <> t) by (intros ->; by apply NOM in H). destruct (B t' v ts' k' H) as (B1 & B2 & B3 & B4).
        split; [done|]. rewrite permit_un. destruct (Nat.eqb_spec t t'); [done|]. split; [done|]. split; [auto|].
        intros u' ts2 k2 H'. destruct (decide (u' = u)) as [->|Nu]; [by rewrite lupd_eq in H'|]. rewrite lupd_ne in H' by done. eauto.
      * intros t' H. destruct (decide (t' = u)) as [->|Nt]; [by rewrite lupd_eq in H|]. rewrite lupd_ne in H by done.
        rewrite permit_un. destruct (Nat.eqb_spec t t'); auto.
      * by apply (ev_cons_ret (fun t l2 => permit l2 t = true)).
    + injection L as <-. destruct (li_make s I u t ts k P) as [Et TH]. rewrite TH. destruct PI as [A B C D].
      destruct (B t u ts k P) as (B1 & B2 & B3 & B4).
      assert (WW : forall t', waits (l_pc s t') = true -> waits (lupd (l_pc s) u (LUn ts k) t') = true).
      { intros t' H. destruct (decide (t' = u)) as [->|Nt]; [by rewrite P in H|by rewrite lupd_ne]. }
      split; cbn.
      * intros t' H. destruct (decide (t' = t)) as [->|Nt]; [rewrite lupd_eq; rewrite B1; auto|]. rewrite lupd_ne in H by done.
        rewrite lupd_ne by done. destruct (A t' H) as (A1 & A2 & A3). auto.
      * intros t' v ts' k' H. destruct (decide (v = u)) as [->|Nv]; [by rewrite lupd_eq in H|]. rewrite lupd_ne in H by done.
        assert (t' <> t) by (intros ->; apply Nv; by eapply B4). rewrite (lupd_ne (l_rq s)) by done.
        destruct (B t' v ts' k' H) as (X1 & X2 & X3 & X4). split; [done|]. split; [done|]. split; [auto|].
        intros u' ts2 k2 H'. destruct (decide (u' = u)) as [->|Nu]; [by rewrite lupd_eq in H'|]. rewrite lupd_ne in H' by done. eauto.
      * intros t' H. destruct (decide (t' = u)) as [->|Nt]; [by rewrite lupd_eq in H|]. rewrite lupd_ne in H by done. auto.
      * exact D.
    + destruct (N.eqb_spec (l_st s u) MUNPARK) as [E1|E1].
      * injection L as <-. assert (X : pinv (wl_pc s u LParkA)) by (apply pinv_pc; rewrite ?P; auto; done). by destruct X.
      * destruct b; injection L as <-; [done|].
        assert (X : pinv (wl_pc s u LParkB)) by (apply pinv_pc; rewrite ?P; auto; done). by destruct X.
    + injection L as <-. eapply pinv_return; [done| |exact P|by apply (li_a s I)]. auto.
    + injection L as <-. apply pinv_pc; rewrite ?P; auto; done.
    + injection L as <-. eapply pinv_return; [done| |exact P|by apply (pi_r s PI)]. auto.
    + injection L as <-. assert (X : pinv (wl_pc s u LIdle)) by (apply pinv_pc; rewrite ?P; auto; done). by destruct X.
  - destruct (l_idle s u) eqn:Id; [|done]. apply idle_inv in Id as [X P]. injection L as <-. apply pinv_pc; rewrite ?P; auto; done.
  - destruct (l_idle s u) eqn:Id; [|done]. apply idle_inv in Id as [X P]. injection L as <-. apply pinv_pc; rewrite ?P; auto; done.
  - destruct (l_idle s u) eqn:Id; [|done]. apply idle_inv in Id as [X P]. injection L as <-. apply pinv_pc; rewrite ?P; auto; done.
  - destruct (l_idle s u) eqn:Id; [|done]. apply idle_inv in Id as [X P]. injection L as <-. apply pinv_pc; rewrite ?P; auto; done.
  - destruct (l_idle s u) eqn:Id; [|done]. apply idle_inv in Id as [X P]. destruct (l_ex s v) eqn:Ev; cbn in L; [done|].
    destruct (Nat.eqb_spec v 0) as [|Nv]; [done|]. cbn in L. injection L as <-.
    assert (I' : pinv (wl_pc s u (LAssign v))) by (apply pinv_pc; rewrite ?P; auto; done). by destruct I'.
  - destruct (l_pc s u) as [| | | | | | |b|] eqn:P; try done.
    destruct (l_rq s u) as [|k] eqn:R; [by destruct b|]. destruct PI as [A B C D].
    destruct (A u) as (A1 & A2 & A3); [lia|]. rewrite P in A3. destruct b; try done. injection L as <-. assert (k = 0) as -> by lia.
    assert (NOM : forall v ts' k', l_pc s v <> LMake u ts' k').
    { intros v ts' k' H. apply B in H as (X & _). congruence. }
    split; cbn.
    + intros t H. destruct (decide (t = u)) as [->|Nt]; [rewrite lupd_eq in H; lia|]. rewrite lupd_ne in H by done.
      rewrite !lupd_ne by done. auto.
    + intros t v ts' k' H. destruct (decide (v = u)) as [->|Nv]; [by rewrite lupd_eq in H|]. rewrite lupd_ne in H by done.
      assert (t <> u) by (intros ->; by apply NOM in H). rewrite !lupd_ne by done.
      destruct (B t v ts' k' H) as (X1 & X2 & X3 & X4). split; [done|]. split; [done|]. split; [done|].
      intros u' ts2 k2 H'. destruct (decide (u' = u)) as [->|Nu]; [by rewrite lupd_eq in H'|]. rewrite lupd_ne in H' by done. eauto.
    + intros t H. destruct (decide (t = u)) as [->|Nt]; [done|]. rewrite lupd_ne in H by done. auto.
    + exact D.
Qed.
Lemma pinv_init : pinv l_init.
Proof. split; cbn; try done; try lia. intros l1 t l2 H. by destruct l1. Qed.
Lemma always_and (P Q : lst -> llab -> Prop) tr : forall s, always (fun s l => P s l /\ Q s l) s tr -> always P s tr /\ always Q s tr.
Proof. induction tr as [|l tr IH]; intros s H; [done|]. destruct H as [[H1 H2] H3]. apply IH in H3 as [H3 H4]. by split; split. Qed.
Lemma pinv_run tr : forall s, linv s -> pinv s -> l_crash s = false -> always noted s tr -> always polite s tr ->
  l_crash (l_run s tr) = false -> linv (l_run s tr) /\ pinv (l_run s tr).
Proof.
  induction tr as [|l tr IH]; intros s I PI C NN PP C'; [done|]. destruct NN as [N1 N2], PP as [P1 P2]. cbn [l_run] in *.
  destruct (l_label s l) as [s'|] eqn:L; unfold default, from_option, id in *; [|by apply IH].
  destruct (l_crash s') eqn:C2; [rewrite crash_run in C' by done; congruence|].
  apply IH; [|by eapply pinv_step|done|done|done|done]. by eapply linv_step.
Qed.
(** ** No panic *)
Definition untimed (s : lst) : Prop := forall u b, l_pc s u = LPark0 b \/ (exists ts, l_pc s u = LUn ts (KPark b)) \/
  (exists t ts, l_pc s u = LMake t ts (KPark b)) -> b = false.
Lemma untimed_step s l s' : untimed s -> proper s l -> l_label s l = Some s' -> l_crash s = false -> untimed s'.
Proof.
  intros U [P1 P2] L Cr u' b. unfold l_label in L. rewrite Cr in L.
  assert (G : forall s1 u p, l_pc s1 = lupd (l_pc s) u p ->
    (forall b, p = LPark0 b \/ (exists ts, p = LUn ts (KPark b)) \/ (exists t ts, p = LMake t ts (KPark b)) -> b = false) ->
    l_pc s1 u' = LPark0 b \/ (exists ts, l_pc s1 u' = LUn ts (KPark b)) \/ (exists t ts, l_pc s1 u' = LMake t ts (KPark b)) -> b = false).
  { intros s1 u p E H. rewrite E. destruct (decide (u' = u)) as [->|N1]; [rewrite lupd_eq; apply H|rewrite lupd_ne by done; apply U]. }
  destruct l as [u|u ts|u tm o|u|u|u v|u].
  - destruct (l_ex s u) eqn:Ex; [|done]. unfold l_step in L. destruct (l_pc s u) as [|[|t ts] k|t ts k|tm| | | |bb|v] eqn:P; try done.
    + destruct k as [|tm]; injection L as <-; eapply G; try done.
      * intros b' [H|[(? & H)|(? & ? & H)]]; done.
      * intros b' [H|[(? & H)|(? & ? & H)]]; [injection H as ->|done|done]. apply (U u). right. left. by exists [].
    + destruct (l_ex s t); cbn [negb] in L; [|injection L as <-; apply U].
      destruct (N.eqb _ _); injection L as <-; eapply G; try done.
      * intros b' [H|[(? & H)|(? & ? & H)]]; [done|done|injection H as _ _ ->]. apply (U u). right. left. by exists (t :: ts).
      * intros b' [H|[(? & H)|(? & ? & H)]]; [done|injection H as _ ->|done]. apply (U u). right. left. by exists (t :: ts).
    + injection L as <-. eapply G; try done. intros b' [H|[(? & H)|(? & ? & H)]]; [done|injection H as _ ->|done].
      apply (U u). right. right. by exists t, ts.
    + destruct (N.eqb _ _); [injection L as <-; eapply G; try done; intros b' [H|[(? & H)|(? & ? & H)]]; done|].
      destruct tm; injection L as <-; [apply U|]. eapply G; try done. intros b' [H|[(? & H)|(? & ? & H)]]; done.
    + injection L as <-; eapply G; try done; intros b' [H|[(? & H)|(? & ? & H)]]; done.
    + injection L as <-; eapply G; try done; intros b' [H|[(? & H)|(? & ? & H)]]; done.
    + injection L as <-; eapply G; try done; intros b' [H|[(? & H)|(? & ? & H)]]; done.
    + injection L as <-; eapply G; try done; intros b' [H|[(? & H)|(? & ? & H)]]; done.
  - destruct (l_idle s u); [|done]. injection L as <-; eapply G; try done; intros b' [H|[(? & H)|(? & ? & H)]]; done.
  - destruct (l_idle s u); [|done]. injection L as <-; eapply G; try done; intros b' [H|[(? & H)|(? & ? & H)]]; [done| |done].
    injection H as _ ->. destruct b'; [|done]. by destruct (P1 u o).
  - destruct (l_idle s u); [|done]. injection L as <-; eapply G; try done; intros b' [H|[(? & H)|(? & ? & H)]]; done.
  - destruct (l_idle s u); [|done]. injection L as <-; eapply G; try done; intros b' [H|[(? & H)|(? & ? & H)]]; done.
  - destruct (l_idle s u && _ && _); [|done]. injection L as <-; eapply G; try done; intros b' [H|[(? & H)|(? & ? & H)]]; done.
  - destruct (l_pc s u) as [| | | | | | |bb|] eqn:P; try done. destruct (l_rq s u); [by destruct bb|].
    destruct bb; injection L as <-; [|apply U|]; eapply G; try done; intros b' [H|[(? & H)|(? & ? & H)]]; done.
Qed.
Lemma no_crash_step s l s' : pinv s -> untimed s -> proper s l -> l_crash s = false -> l_label s l = Some s' -> l_crash s' = false.
Proof.
  intros PI U [P1 P2] Cr L. unfold l_label in L. rewrite Cr in L. destruct l as [u|u ts|u tm o|u|u|u v|u].
  - destruct (l_ex s u) eqn:Ex; [|done]. unfold l_step in L. destruct (l_pc s u) as [|[|t ts] k|t ts k|tm| | | |bb|v] eqn:P; try done.
    + destruct k; by injection L as <-.
    + rewrite (P2 t) in L by (exists u, ts, k; done). cbn [negb] in L. destruct (N.eqb _ _); by injection L as <-.
    + by injection L as <-.
    + assert (tm = false) as -> by (apply (U u); auto). destruct (N.eqb _ _); by injection L as <-.
    + by injection L as <-.
    + by injection L as <-.
    + by injection L as <-.
    + by injection L as <-.
  - destruct (l_idle s u); [|done]. by injection L as <-.
  - destruct (l_idle s u); [|done]. by injection L as <-.
  - destruct (l_idle s u); [|done]. by injection L as <-.
  - destruct (l_idle s u); [|done]. by injection L as <-.
  - destruct (l_idle s u && _ && _); [|done]. by injection L as <-.
  - destruct (l_pc s u) as [| | | | | | |bb|] eqn:P; try done. destruct (l_rq s u) eqn:R; [by destruct bb|].
    destruct (pi_rq s PI u) as (_ & _ & W); [lia|]. rewrite P in W. destruct bb; try done. by injection L as <-.
Qed.
Lemma no_crash_run tr : forall s, linv s -> pinv s -> untimed s -> l_crash s = false ->
  always noted s tr -> always polite s tr -> always proper s tr -> l_crash (l_run s tr) = false.
Proof.
  induction tr as [|l tr IH]; intros s I PI U C NN PP RR; [done|]. destruct NN as [N1 N2], PP as [P1 P2], RR as [R1 R2]. cbn [l_run].
  destruct (l_label s l) as [s'|] eqn:L; unfold default, from_option, id in *; [|by apply IH].
  pose proof (no_crash_step s l s' PI U R1 C L) as C2.
  apply IH; [by eapply linv_step|by eapply pinv_step|by eapply untimed_step|done|done|done|done].
Qed.
Lemma untimed_init : untimed l_init.
Proof. intros u b [H|[(? & H)|(? & ? & H)]]; done. Qed.
