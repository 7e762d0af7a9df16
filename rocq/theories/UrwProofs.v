(** C35: invariant of the user-level reader-writer lock. *)
From Verif Require Import Base CntLib UrwModel.

(** Threads inside the inner mutex [wait]. *)
Definition waitp (p : upc) : bool :=
  match p with
  | UEW1 | UEW2 | UEW3 | UER1 | UER2 | UER3 | UER4 | UTW1 | UTW2 | UTW3 | UTW4
  | UTR1 | UTR2 _ | UTR3 | UTR4 | UTR5 | UTR6 | UTPanic => true
  | _ => false
  end.
(** Readers; a first reader that waits for [access]; threads with exclusive access; a
    downgrading thread about to pass [access] to the waiting first reader. *)
Definition rho (p : upc) : bool :=
  match p with UR | UER3 | UER4 | UTR4 | UTR5 | UX0 false | UX1 | UU0 => true | _ => false end.
Definition sig (p : upc) : bool := match p with UER2 => true | _ => false end.
Definition om (p : upc) : bool :=
  match p with
  | UEW2 | UEW3 | UTW2 | UTW3 | UTR3 | UW | UX0 true | UX2 | UX3 | UD0 | UD1 | UU1 => true
  | _ => false
  end.
Definition del (p : upc) : bool := match p with UD2 => true | _ => false end.
(** Threads that rely on the value of lock_type. *)
Definition ltw (p : upc) : bool := match p with UEW3 | UTW3 | UW | UX0 true => true | _ => false end.
Definition ltr (p : upc) : bool :=
  match p with UER4 | UTR5 | UR | UX0 false | UX1 | UU0 | UD1 | UD2 => true | _ => false end.

Definition lag (p : upc) : bool := match p with UER3 | UTR4 => true | _ => false end.
(** The numbers of rwlock.rs:70-77. *)
Definition ltn (l : lktype) : nat := match l with LFree => 0 | LWriteable => 1 | LReadable => 2 end.

Record uinv (s : ust) : Prop := {
  ui_wait : forall i p, u_th s !! i = Some p -> waitp p = true <-> u_wait s = Some i;
  ui_wlt : forall i, u_wait s = Some i -> i < length (u_th s);
  ui_rd : u_rd s = Z.of_nat (cnt rho (u_th s) + cnt sig (u_th s) + cnt del (u_th s));
  ui_one : cnt om (u_th s) + cnt del (u_th s) <= 1;
  ui_om : 0 < cnt om (u_th s) -> cnt rho (u_th s) = 0;
  ui_del : 0 < cnt del (u_th s) -> cnt rho (u_th s) = 0 /\ cnt sig (u_th s) = 1;
  ui_acc1 : 0 < cnt om (u_th s) + cnt del (u_th s) -> Nat.b2n (u_acc s) = 1;
  ui_acc2 : 0 < cnt rho (u_th s) -> cnt sig (u_th s) = 0 -> Nat.b2n (u_acc s) = 1;
  ui_acc3 : Nat.b2n (u_acc s) = 1 -> 0 < cnt om (u_th s) + cnt del (u_th s) \/
                              (0 < cnt rho (u_th s) /\ cnt sig (u_th s) = 0);
  ui_ltw : 0 < cnt ltw (u_th s) -> ltn (u_lt s) = 1;
  ui_ltr : 0 < cnt ltr (u_th s) -> ltn (u_lt s) = 2 }.

Lemma uinv_init n : uinv (u_init n).
Proof.
  assert (Z : forall P, P UIdle = false -> cnt P (replicate n UIdle) = 0).
  { intros P H. rewrite cnt_replicate, H. simpl. lia. }
  split; unfold u_init; cbn [u_wait u_acc u_own u_rd u_lt u_th]; rewrite ?Z by done; try done; try lia.
  intros i p H. apply lookup_replicate in H as [-> _]. done.
Qed.

(** At most one thread is inside [wait], so at most one first reader waits. *)
Lemma waitp_cnt s : uinv s -> cnt waitp (u_th s) <= 1.
Proof.
  intros I. destruct (cnt waitp (u_th s)) as [|[|k]] eqn:E; [lia|lia|exfalso].
  assert (H : forall l, (forall i j p q, l !! i = Some p -> l !! j = Some q -> waitp p = true -> waitp q = true -> i = j) ->
              cnt waitp l <= 1).
  { clear. induction l as [|z l IH]; intros H; [simpl; lia|]. simpl.
    destruct (waitp z) eqn:Ez; simpl.
    - assert (cnt waitp l = 0) by (apply cnt_zero; intros i x Hx; destruct (waitp x) eqn:Ex; [|done];
        exfalso; pose proof (H 0 (S i) z x eq_refl Hx Ez Ex); lia). lia.
    - apply IH. intros i j p q Hi Hj Hp Hq. assert (S i = S j) by (by eapply H). lia. }
  specialize (H (u_th s)). rewrite E in H. assert (S (S k) <= 1); [|lia]. apply H.
  intros i j p q Hi Hj Hp Hq. apply (ui_wait _ I _ _ Hi) in Hp. apply (ui_wait _ I _ _ Hj) in Hq. congruence.
Qed.
Lemma cnt_sub {A} (P Q : A -> bool) l : (forall x, P x = true -> Q x = true) -> cnt P l <= cnt Q l.
Proof.
  intros H. induction l as [|z l IH]; simpl; [done|]. specialize (H z).
  destruct (P z), (Q z); simpl; lia.
Qed.

Lemma uinv_step s i a s' : uinv s -> u_step s i a = Some s' -> uinv s'.
Proof.
  intros I E. unfold u_step in E. destruct (u_th s !! i) as [pc|] eqn:Ei; [|done].
  assert (Hil : i < length (u_th s)) by (by eapply lookup_lt_Some).
  pose proof (waitp_cnt s I) as WC.
  pose proof (fun P q => cnt_insert P (u_th s) i pc q Ei) as C.
  pose proof (fun P => cnt_pos P (u_th s) i pc Ei) as CP.
  assert (SW : cnt sig (u_th s) + (if waitp pc then if sig pc then 0 else 1 else 0) <= 1).
  { destruct (waitp pc) eqn:Ew; [|rewrite (Nat.add_0_r); etransitivity; [apply (cnt_sub sig waitp); by intros []|done]].
    destruct (sig pc) eqn:Es; [rewrite Nat.add_0_r; etransitivity; [apply (cnt_sub sig waitp); by intros []|done]|].
    pose proof (C sig UIdle) as C1. pose proof (C waitp UIdle) as C2. rewrite Ew in C2. rewrite Es in C1. simpl in C1, C2.
    pose proof (cnt_sub sig waitp (<[i := UIdle]> (u_th s)) ltac:(by intros [])). lia. }
  assert (LR : cnt rho (u_th s) <= cnt ltr (u_th s) + cnt lag (u_th s)).
  { clear. induction (u_th s) as [|z l IH]; [done|]. simpl.
    destruct z; try match goal with b : bool |- _ => destruct b end; simpl; lia. }
  assert (LG : waitp pc = true -> lag pc = false -> cnt lag (u_th s) = 0).
  { intros Hw Hl. pose proof (C lag UIdle) as C1. pose proof (C waitp UIdle) as C2. rewrite Hl in C1. rewrite Hw in C2. simpl in C1, C2.
    pose proof (cnt_sub lag waitp (<[i := UIdle]> (u_th s)) ltac:(by intros [])). lia. }
  assert (LWO : cnt ltw (<[i := UIdle]> (u_th s)) <= cnt om (<[i := UIdle]> (u_th s))) by (apply cnt_sub; by intros []).
  assert (LRO : cnt ltr (<[i := UIdle]> (u_th s)) <= cnt rho (<[i := UIdle]> (u_th s)) + cnt om (<[i := UIdle]> (u_th s))
                + cnt del (<[i := UIdle]> (u_th s))).
  { generalize (<[i := UIdle]> (u_th s)). clear. intros l. induction l as [|z l IH]; [done|]. simpl.
    destruct z; try match goal with b : bool |- _ => destruct b end; simpl; lia. }
  pose proof (C rho UIdle) as Drho. pose proof (C om UIdle) as Dom. pose proof (C del UIdle) as Ddel.
  pose proof (C ltw UIdle) as Dltw. pose proof (C ltr UIdle) as Dltr.
  assert (LTD : u_lt s = LWriteable <-> ltn (u_lt s) = 1) by (by destruct (u_lt s)).
  destruct I as [IW IL IR I1 IO ID A1 A2 A3 LW' LR'].
  assert (IWi : waitp pc = true <-> u_wait s = Some i) by (by apply IW).
  assert (W0 : forall q, waitp q = waitp pc -> forall j p, <[i := q]> (u_th s) !! j = Some p -> waitp p = true <-> u_wait s = Some j).
  { intros q Hq j p Hj. destruct (decide (j = i)) as [->|Hn].
    - rewrite list_lookup_insert in Hj by done. injection Hj as <-. by rewrite Hq.
    - rewrite list_lookup_insert_ne in Hj by done. by apply IW. }
  assert (W1 : forall q, u_wait s = None -> waitp q = true -> forall j p, <[i := q]> (u_th s) !! j = Some p -> waitp p = true <-> Some i = Some j).
  { intros q HN Hq j p Hj. destruct (decide (j = i)) as [->|Hn].
    - rewrite list_lookup_insert in Hj by done. injection Hj as <-. by rewrite Hq.
    - rewrite list_lookup_insert_ne in Hj by done. rewrite (IW _ _ Hj), HN. split; intros [= ?]. congruence. }
  assert (W2 : forall q, waitp pc = true -> waitp q = false -> forall j p, <[i := q]> (u_th s) !! j = Some p -> waitp p = true <-> None = Some j).
  { intros q Hp Hq j p Hj. destruct (decide (j = i)) as [->|Hn].
    - rewrite list_lookup_insert in Hj by done. injection Hj as <-. by rewrite Hq.
    - rewrite list_lookup_insert_ne in Hj by done. rewrite (IW _ _ Hj). apply IWi in Hp. rewrite Hp.
      split; intros [= ?]. congruence. }
  destruct s as [w ac ow rd lt th]. cbn [u_wait u_acc u_own u_rd u_lt u_th] in *.
  pose proof (ltac:(by destruct ac; simpl; lia) : Nat.b2n ac <= 1) as AC1.
  destruct pc; try match goal with b : bool |- _ => destruct b end; destruct a; cbn [u_exec] in E; try discriminate E.
  all: repeat match type of E with
       | context [if decide ?b then _ else _] => destruct (decide b)
       | context [if ?b then _ else _] => destruct b eqn:?
       | context [match ?b with Some _ => _ | None => _ end] => destruct b eqn:?
       end; try discriminate E.
  all: injection E as <-.
  all: cbn [waitp sig] in SW, IWi.
  all: try match goal with H : _ = LWriteable |- _ => apply LTD in H
                         | H : _ <> LWriteable |- _ => assert (ltn lt <> 1) by tauto end.
  all: match goal with |- uinv (mkU _ _ _ _ _ (<[_ := ?q]> _)) =>
         pose proof (C rho q) as Crho; pose proof (C sig q) as Csig; pose proof (C om q) as Com;
         pose proof (C del q) as Cdel; pose proof (C ltw q) as Cltw; pose proof (C ltr q) as Cltr end.
  all: cbn [rho sig om del ltw ltr waitp lag Nat.b2n] in *.
  all: try specialize (LG eq_refl eq_refl).
  all: rewrite ?Nat.add_0_r in Crho, Csig, Com, Cdel, Cltw, Cltr.
  all: try (exfalso; destruct IWi as [IWi _]; specialize (IWi eq_refl); congruence).
  all: try match goal with |- uinv (mkU _ _ _ _ _ (<[_ := UPanic]> _)) => exfalso; lia end.
  all: split; cbn [u_wait u_acc u_own u_rd u_lt u_th ltn Nat.b2n]; rewrite ?insert_length; try assumption.
  all: rewrite ?Crho, ?Csig, ?Com, ?Cdel, ?Cltw, ?Cltr; try assumption.
  all: try (intros ?; by injection 1 as <-).
  all: try done.
  all: try (apply W0; done).
  all: try (apply W1; done).
  all: try (apply W2; done).
  all: clear W0 W1 W2 C CP IW IL LTD Hil WC.
  all: match goal with |- @eq Z _ _ => idtac | _ => try clear IR Drho Dom Ddel Dltw; lia | _ => idtac end.
  all: lia.
Qed.
