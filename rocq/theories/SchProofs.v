(** C37: invariants of the user-level scheduler. *)
From Verif Require Import Base CntLib SchModel SchSpec.
From stdpp Require Import functions.

(** ** Facts that hold for all histories *)

Definition wgt (a b : N * nat) : Prop := wcmp a b = Gt.
Lemma wgt_iff a b : wgt a b <-> (b.1 < a.1)%N \/ (b.1 = a.1 /\ b.2 < a.2).
Proof.
  unfold wgt, wcmp. destruct (N.compare_spec (a.1) (b.1)) as [E|E|E].
  - destruct (Nat.compare_spec (a.2) (b.2)); split; try done; try lia; intros [?|[? ?]]; lia.
  - split; [done|]. intros [?|[? ?]]; lia.
  - split; [by left|done].
Qed.
Lemma wcmp_lt a b : wcmp a b = Lt -> wgt b a.
Proof.
  intros H. apply wgt_iff. unfold wcmp in H. destruct (N.compare_spec (a.1) (b.1)) as [E|E|E]; [|by left|done].
  destruct (Nat.compare_spec (a.2) (b.2)); try done. right. lia.
Qed.
Lemma wgt_trans a b c : wgt a b -> wgt b c -> wgt a c.
Proof. rewrite !wgt_iff. lia. Qed.

Fixpoint wsorted (l : list (N * nat)) : Prop :=
  match l with [] => True | x :: l => (forall y, y ∈ l -> wgt x y) /\ wsorted l end.

Lemma wl_insert_elem x l l' : wl_insert x l = Some l' -> forall y, y ∈ l' <-> y = x \/ y ∈ l.
Proof.
  revert l'. induction l as [|z l IH]; intros l' E y; simpl in E.
  - injection E as <-. by rewrite elem_of_list_singleton, elem_of_nil; intuition.
  - destruct (wcmp z x) eqn:Ec; [done| |].
    + injection E as <-. rewrite elem_of_cons. done.
    + destruct (wl_insert x l) as [l1|] eqn:E1; [|done]. injection E as <-.
      rewrite !elem_of_cons, (IH _ eq_refl). tauto.
Qed.
Lemma wl_insert_sorted x l l' : wsorted l -> wl_insert x l = Some l' -> wsorted l'.
Proof.
  revert l'. induction l as [|z l IH]; intros l' S E; simpl in E.
  - injection E as <-. simpl. split; [by intros y ?%elem_of_nil|done].
  - destruct S as [S1 S2]. destruct (wcmp z x) eqn:Ec; [done| |].
    + injection E as <-. simpl. split; [|done]. apply wcmp_lt in Ec. intros y [->|Hy]%elem_of_cons; [done|].
      eapply wgt_trans; [done|by apply S1].
    + destruct (wl_insert x l) as [l1|] eqn:E1; [|done]. injection E as <-. simpl. split; [|by apply IH].
      intros y Hy. apply (wl_insert_elem _ _ _ E1) in Hy as [->|Hy]; [done|by apply S1].
Qed.
Lemma wl_insert_ok x l : x ∉ l -> wsorted l -> exists l', wl_insert x l = Some l'.
Proof.
  induction l as [|z l IH]; intros H S; simpl; [eauto|].
  apply not_elem_of_cons in H as [H1 H2]. destruct (wcmp z x) eqn:Ec.
  - exfalso. apply H1. unfold wcmp in Ec. destruct (N.compare_spec (z.1) (x.1)) as [E|E|E]; try done.
    apply Nat.compare_eq in Ec. destruct z, x; simpl in *; congruence.
  - eauto.
  - destruct IH as [l' ->]; [done|by destruct S|]. simpl. eauto.
Qed.
Lemma wsorted_app l x : wsorted (l ++ [x]) -> wsorted l /\ forall y, y ∈ l -> wgt y x.
Proof.
  induction l as [|z l IH]; simpl; [intros _; split; [done|by intros y ?%elem_of_nil]|].
  intros [H1 H2]. apply IH in H2 as [H3 H4]. split.
  - split; [|done]. intros y Hy. apply H1, elem_of_app. by left.
  - intros y [->|Hy]%elem_of_cons; [|by apply H4]. apply H1, elem_of_app. right. by apply elem_of_list_singleton.
Qed.
Lemma wsorted_filter (P : N * nat -> Prop) `{forall x, Decision (P x)} l : wsorted l -> wsorted (filter P l).
Proof.
  induction l as [|z l IH]; simpl; [done|]. intros [H1 H2]. rewrite filter_cons. destruct (decide (P z)); [|by apply IH].
  simpl. split; [|by apply IH]. intros y Hy. apply elem_of_list_filter in Hy as [_ Hy]. by apply H1.
Qed.

Lemma spawned_app a b : spawned (a ++ b) = spawned a ++ spawned b.
Proof. induction a as [|[]]; simpl; congruence. Qed.
Lemma readied_app c a b : readied c (a ++ b) = readied c a ++ readied c b.
Proof. induction a as [|[] a IH]; simpl; rewrite ?IH; try done. by case_decide. Qed.
Lemma dispatched_app c a b : dispatched c (a ++ b) = dispatched c a ++ dispatched c b.
Proof. induction a as [|[] a IH]; simpl; rewrite ?IH; try done. by case_decide. Qed.

Record uni (s : sch) : Prop := {
  un_sort : forall c, wsorted (h_wait s c);
  un_tid : forall t x, h_thr s !! t = Some x -> t < h_next s;
  un_spl : forall t, t ∈ spawned (h_tr s) -> t < h_next s;
  un_snd : NoDup (spawned (h_tr s));
  un_size : size (h_thr s) <= S MAX_THREADS }.

Lemma uni_init : uni sch_init.
Proof. split; simpl; try done; [by intros ? ?%elem_of_nil|apply NoDup_nil_2|rewrite map_size_empty; lia]. Qed.

Ltac dstr s := destruct s as [th ge ru wa nx ir cu tr]; cbn [h_thr h_gen h_run h_wait h_next h_irq h_cur h_tr] in *.

Lemma uni_mark s t c s' : uni s -> mark_runnable s t c = Ok s' -> uni s'.
Proof.
  intros [U1 U2 U3 U4 U5]. dstr s. simpl. case_decide; [|done]. intros [= <-].
  split; cbn [h_thr h_wait h_next h_tr]; rewrite ?spawned_app, ?app_nil_r; done.
Qed.
Lemma uni_unmark s t c s' : uni s -> mark_unrunnable s t c = Ok s' -> uni s'.
Proof. intros [U1 U2 U3 U4 U5]. dstr s. simpl. case_decide; [|done]. intros [= <-]. by split. Qed.
Lemma uni_wremove s t c s' : uni s -> waitlist_remove s t c = Ok s' -> uni s'.
Proof.
  intros [U1 U2 U3 U4 U5]. dstr s. simpl. case_decide; [|done]. intros [= <-]. split; cbn [h_thr h_wait h_next h_tr]; try done.
  intros c'. destruct (decide (c' = c)) as [->|Hn]; [rewrite fn_lookup_insert|by rewrite fn_lookup_insert_ne].
  by apply wsorted_filter.
Qed.
Lemma uni_winsert s t c w s' : uni s -> waitlist_insert s t c w = Ok s' -> uni s'.
Proof.
  intros [U1 U2 U3 U4 U5]. dstr s. simpl. case_decide; [|done]. destruct (wl_insert _ _) as [l|] eqn:El; [|done].
  intros [= <-]. split; cbn [h_thr h_wait h_next h_tr]; try done.
  intros c'. destruct (decide (c' = c)) as [->|Hn]; [rewrite fn_lookup_insert|by rewrite fn_lookup_insert_ne].
  by eapply wl_insert_sorted.
Qed.
Lemma uni_wake s r s' : uni s -> wake_thread s r = Ok s' -> uni s'.
Proof.
  unfold wake_thread. intros U. destruct (h_thr s !! r) as [x|]; [|done].
  destruct (waitlist_remove s r (t_aff x)) as [s1| |] eqn:E1; simpl; try done. intros E2.
  eapply uni_mark; [|done]. by eapply uni_wremove.
Qed.
Lemma uni_wakes s l s' : uni s -> wake_threads s l = Ok s' -> uni s'.
Proof.
  revert s. induction l as [|r l IH]; intros s U; simpl; [by intros [= <-]|].
  destruct (wake_thread s r) as [s1| |] eqn:E1; simpl; try done. apply IH. by eapply uni_wake.
Qed.
Lemma uni_joiners s l s' : uni s -> wake_joiners s l = Ok s' -> uni s'.
Proof.
  revert s. induction l as [|[t c] l IH]; intros s U; simpl; [by intros [= <-]|].
  destruct (mark_runnable s t c) as [s1| |] eqn:E1; simpl; try done. apply IH. by eapply uni_mark.
Qed.
Lemma uni_spawn s aff irq s' o : uni s -> sch_spawn s aff irq = Ok (s', o) -> uni s'.
Proof.
  intros [U1 U2 U3 U4 U5]. dstr s. unfold sch_spawn. destruct (th !! nx) eqn:En; [done|].
  destruct (decide (size th <= MAX_THREADS)) as [Hs|Hs].
  - unfold mark_runnable. destruct (decide (aff < SCH_CORES)); [|done]. simpl. intros [= <- <-].
    split; cbn [h_thr h_wait h_next h_tr]; rewrite ?spawned_app; simpl; rewrite ?app_nil_r; try done.
    + intros t x Hx. destruct (decide (t = nx)) as [->|Hn]; [lia|]. rewrite lookup_insert_ne in Hx by done. apply U2 in Hx. lia.
    + intros t. rewrite elem_of_app, elem_of_list_singleton. intros [H| ->]; [apply U3 in H; lia|lia].
    + apply NoDup_app. split; [done|]. split; [|apply NoDup_singleton]. intros t Ht ->%elem_of_list_singleton.
      apply U3 in Ht. lia.
    + rewrite map_size_insert_None by done. lia.
  - intros [= <- <-]. split; cbn [h_thr h_wait h_next h_tr]; try done; intros; [apply U2 in H; lia|apply U3 in H; lia].
Qed.
Lemma uni_delete th ge ru wa nx ir cu tr t : uni (mkSch th ge ru wa nx ir cu tr) ->
  uni (mkSch (delete t th) ge ru wa nx ir cu (tr ++ [VExit t])).
Proof.
  intros [U1 U2 U3 U4 U5]. split; cbn [h_thr h_wait h_next h_tr] in *; rewrite ?spawned_app; simpl; rewrite ?app_nil_r; try done.
  - intros t' x [_ H]%lookup_delete_Some. by eapply U2.
  - assert (size (delete t th) <= size th); [|lia]. destruct (th !! t) as [x|] eqn:E.
    + rewrite map_size_delete_Some by eauto. lia.
    + by rewrite map_size_delete_None.
Qed.
Lemma uni_handle s t r s' y : uni s -> handle_yield s t r = Ok (s', y) -> uni s'.
Proof.
  intros U. unfold handle_yield. destruct (h_thr s !! t) as [x|] eqn:Ex; [|done]. destruct r.
  - destruct (mark_unrunnable s t (t_aff x)) as [s1| |] eqn:E1; simpl; try done.
    pose proof (uni_unmark _ _ _ _ U E1) as U1. destruct s1 as [th ge ru wa nx ir cu tr].
    destruct (wake_joiners _ _) as [s2| |] eqn:E2; simpl; try done. intros [= <- <-].
    eapply uni_joiners; [|done]. by apply uni_delete.
  - destruct (mark_runnable s t (t_aff x)) as [s1| |] eqn:E1; simpl; try done. intros [= <- <-]. by eapply uni_mark.
  - destruct (waitlist_insert s t (t_aff x) until) as [s1| |] eqn:E1; simpl; try done. intros [= <- <-]. by eapply uni_winsert.
  - destruct (wake_thread s t0) as [s1| |] eqn:E1; simpl; try done. intros [= <- <-]. by eapply uni_wake.
  - destruct (h_thr s !! t0) as [z|] eqn:Ez; [|done]. destruct (decide (t0 = t)); [by intros [= <- <-]|].
    destruct (mark_unrunnable s t0 (t_aff z)) as [s1| |] eqn:E1; simpl; try done. intros [= <- <-]. by eapply uni_unmark.
  - destruct (wake_threads s ts) as [s1| |] eqn:E1; simpl; try done. intros [= <- <-]. by eapply uni_wakes.
  - destruct (h_thr s !! t0) as [z|] eqn:Ez; [|by intros [= <- <-]]. dstr s. intros [= <- <-].
    destruct U as [U1 U2 U3 U4 U5]. split; cbn [h_thr h_wait h_next h_tr] in *; try done.
    + intros t' x' H. destruct (decide (t' = t0)) as [->|Hn]; [by eapply U2|]. rewrite lookup_insert_ne in H by done. by eapply U2.
    + rewrite map_size_insert_Some by eauto. done.
  - destruct (sch_spawn s aff irq) as [[s1 o]| |] eqn:E1; simpl; try done. destruct o; [|done]. intros [= <- <-].
    by eapply uni_spawn.
Qed.
Lemma uni_cur s c o : uni s -> uni (set_cur s c o).
Proof. intros [U1 U2 U3 U4 U5]. dstr s. by split. Qed.
Lemma uni_gen s t : uni s -> uni (put_gen s t).
Proof. intros [U1 U2 U3 U4 U5]. dstr s. by split. Qed.

Lemma uni_step s a s' : uni s -> sch_step s a = Ok s' -> uni s'.
Proof.
  intros U. destruct a; simpl.
  - destruct (sch_spawn s aff irq) as [[s1 o]| |] eqn:E1; simpl; try done. intros [= <-]. by eapply uni_spawn.
  - destruct (h_cur s c); [by intros [= <-]|]. destruct (h_irq s !! v); [|by intros [= <-]]. by apply uni_mark.
  - destruct (h_cur s c); [by intros [= <-]|]. destruct (reverse (h_wait s c)) as [|[w t] rest] eqn:Er; [by intros [= <-]|].
    destruct (decide (w <= now)%N); [|by intros [= <-]].
    dstr s. intros E. change (mark_runnable (mkSch th ge ru (<[c:=reverse rest]> wa) nx ir cu tr) t c = Ok s') in E.
    eapply uni_mark; [|exact E]. destruct U as [U1 U2 U3 U4 U5].
    split; cbn [h_thr h_wait h_next h_tr] in *; try done. intros c'.
    destruct (decide (c' = c)) as [->|Hn]; [rewrite fn_lookup_insert|by rewrite fn_lookup_insert_ne].
    specialize (U1 c). rewrite <- (reverse_involutive (wa c)), Er, reverse_cons in U1. by apply wsorted_app in U1 as [? _].
  - destruct (h_cur s c); [by intros [= <-]|]. destruct (h_run s c) as [|t rest]; [by intros [= <-]|].
    dstr s. destruct (decide (t ∈ ge)); [|done]. destruct (th !! t); [|done]. intros [= <-].
    destruct U as [U1 U2 U3 U4 U5]. split; cbn [h_thr h_wait h_next h_tr] in *; rewrite ?spawned_app; simpl; rewrite ?app_nil_r; done.
  - destruct (h_cur s c) as [t|]; [|by intros [= <-]].
    destruct (handle_yield s t r) as [[s1 y]| |] eqn:E1; simpl; try done. pose proof (uni_handle _ _ _ _ _ U E1) as U1.
    destruct y; try by intros [= <-].
    + destruct (h_thr s1 !! t); [|done]. intros [= <-]. by apply uni_cur, uni_gen.
    + intros [= <-]. by apply uni_cur.
Qed.
Lemma uni_run s l s' : uni s -> sch_run s l = Ok s' -> uni s'.
Proof.
  revert s. induction l as [|a l IH]; intros s U; simpl; [by intros [= <-]|].
  destruct (sch_step s a) as [s1| |] eqn:E1; simpl; try done. apply IH. by eapply uni_step.
Qed.

(** ** What holds under the discipline *)

Record di (s : sch) : Prop := {
  d_run : forall c t, ready s c t -> alive s c t;
  d_nd : forall c, NoDup (h_run s c);
  d_wait : forall c t w, sleeps s c t w -> alive s c t /\ ~ ready s c t /\ ~ runs s c t;
  d_wnd : forall c, NoDup (h_wait s c).*2;
  d_join : forall u y t a, h_thr s !! u = Some y -> (t, a) ∈ t_join y ->
    alive s a t /\ ~ ready s a t /\ ~ runs s a t /\ forall w, ~ sleeps s a t w;
  d_jnd : forall u y, h_thr s !! u = Some y -> NoDup (t_join y).*1;
  d_jone : forall u u' t, joins s t u -> joins s t u' -> u = u';
  d_cur : forall c t, runs s c t -> alive s c t;
  d_gen : forall c t, alive s c t -> ~ runs s c t -> t ∈ h_gen s;
  d_aff : forall c t, alive s c t -> c < SCH_CORES;
  d_next : forall c t, alive s c t -> t < h_next s }.

Lemma alive_fun s c c' t : alive s c t -> alive s c' t -> c = c'.
Proof. intros (x & H1 & H2) (x' & H3 & H4). congruence. Qed.

Lemma di_init : di sch_init.
Proof.
  split; unfold ready, sleeps, runs, alive, joins; simpl; try done.
  - intros c t H. by apply elem_of_nil in H.
  - intros c. apply NoDup_nil_2.
  - intros c t w H. by apply elem_of_nil in H.
  - intros c. apply NoDup_nil_2.
  - by intros ? ? ? (? & ? & ?).
  - by intros c t (x & ? & ?).
  - by intros c t (x & ? & ?).
  - by intros c t (x & ? & ?).
Qed.

Ltac ups := unfold ready, sleeps, runs, alive, joins, wakeable in *; cbn [h_thr h_gen h_run h_wait h_next h_irq h_cur h_tr] in *.

(** Making a blocked thread runnable. *)
Lemma di_mark s t c : di s -> alive s c t -> ~ ready s c t -> (forall w, ~ sleeps s c t w) -> (forall u, ~ joins s t u) ->
  exists s', mark_runnable s t c = Ok s' /\ di s' /\ h_thr s' = h_thr s /\ h_cur s' = h_cur s /\ h_wait s' = h_wait s /\
    h_gen s' = h_gen s /\ h_run s' = <[c := h_run s c ++ [t]]> (h_run s) /\ h_tr s' = h_tr s ++ [VReady c t].
Proof.
  intros [D1 D2 D3 D4 D5 D6 D7 D8 D9 D10 D11] A R W J. dstr s. unfold mark_runnable.
  assert (Hc : c < SCH_CORES) by (by eapply D10). rewrite decide_True by done.
  eexists. split; [done|]. split; [|done]. ups.
  split; unfold ready, sleeps, runs, alive, joins; cbn [h_thr h_gen h_run h_wait h_next h_irq h_cur h_tr]; try done.
  - intros c' t'. destruct (decide (c' = c)) as [->|Hn]; [rewrite fn_lookup_insert|rewrite fn_lookup_insert_ne by done; apply D1].
    rewrite elem_of_app, elem_of_list_singleton. intros [H| ->]; [by apply D1|done].
  - intros c'. destruct (decide (c' = c)) as [->|Hn]; [rewrite fn_lookup_insert|rewrite fn_lookup_insert_ne by done; apply D2].
    apply NoDup_app. split; [done|]. split; [|apply NoDup_singleton]. by intros x Hx ->%elem_of_list_singleton.
  - intros c' t' w H. destruct (D3 _ _ _ H) as (H1 & H2 & H3). split; [done|]. split; [|done].
    destruct (decide (c' = c)) as [->|Hn]; [rewrite fn_lookup_insert|by rewrite fn_lookup_insert_ne].
    rewrite elem_of_app, elem_of_list_singleton. intros [?| ->]; [done|by eapply W].
  - intros u y t' a Hu Ht. destruct (D5 _ _ _ _ Hu Ht) as (H1 & H2 & H3). split; [done|]. split; [|done].
    destruct (decide (a = c)) as [->|Hn]; [rewrite fn_lookup_insert|by rewrite fn_lookup_insert_ne].
    rewrite elem_of_app, elem_of_list_singleton. intros [?| ->]; [done|]. apply (J u). exists y. split; [done|].
    apply elem_of_list_fmap. by exists (t, c).
Qed.

Lemma di_unmark s t c : di s -> c < SCH_CORES ->
  exists s', mark_unrunnable s t c = Ok s' /\ di s' /\ h_thr s' = h_thr s /\ h_cur s' = h_cur s /\ h_wait s' = h_wait s /\
    h_gen s' = h_gen s /\ h_next s' = h_next s /\ h_run s' = <[c := filter (fun x => x <> t) (h_run s c)]> (h_run s) /\ h_tr s' = h_tr s.
Proof.
  intros [D1 D2 D3 D4 D5 D6 D7 D8 D9 D10 D11] Hc. dstr s. unfold mark_unrunnable. rewrite decide_True by done.
  eexists. split; [done|]. split; [|done]. ups.
  assert (F : forall c' t', t' ∈ <[c := filter (fun x => x <> t) (ru c)]> ru c' -> t' ∈ ru c').
  { intros c' t'. destruct (decide (c' = c)) as [->|Hn]; [rewrite fn_lookup_insert|by rewrite fn_lookup_insert_ne].
    by intros [_ ?]%elem_of_list_filter. }
  split; unfold ready, sleeps, runs, alive, joins; cbn [h_thr h_gen h_run h_wait h_next h_irq h_cur h_tr]; try done.
  - intros c' t' H. by apply D1, F.
  - intros c'. destruct (decide (c' = c)) as [->|Hn]; [rewrite fn_lookup_insert|by rewrite fn_lookup_insert_ne].
    by apply stdpp.list.NoDup_filter.
  - intros c' t' w H. destruct (D3 _ _ _ H) as (H1 & H2 & H3). split; [done|]. split; [|done]. intros X. by apply H2, F.
  - intros u y t' a Hu Ht. destruct (D5 _ _ _ _ Hu Ht) as (H1 & H2 & H3). split; [done|]. split; [|done]. intros X. by apply H2, F.
Qed.

Lemma di_wremove s t c : di s -> c < SCH_CORES ->
  exists s', waitlist_remove s t c = Ok s' /\ di s' /\ h_thr s' = h_thr s /\ h_cur s' = h_cur s /\ h_run s' = h_run s /\
    h_gen s' = h_gen s /\ h_wait s' = <[c := filter (fun e => e.2 <> t) (h_wait s c)]> (h_wait s) /\ h_tr s' = h_tr s.
Proof.
  intros [D1 D2 D3 D4 D5 D6 D7 D8 D9 D10 D11] Hc. dstr s. unfold waitlist_remove. rewrite decide_True by done.
  eexists. split; [done|]. split; [|done]. ups.
  assert (F : forall c' e, e ∈ <[c := filter (fun e => e.2 <> t) (wa c)]> wa c' -> e ∈ wa c').
  { intros c' e. destruct (decide (c' = c)) as [->|Hn]; [rewrite fn_lookup_insert|by rewrite fn_lookup_insert_ne].
    by intros [_ ?]%elem_of_list_filter. }
  split; unfold ready, sleeps, runs, alive, joins; cbn [h_thr h_gen h_run h_wait h_next h_irq h_cur h_tr]; try done.
  - intros c' t' w H. by eapply D3, F.
  - intros c'. destruct (decide (c' = c)) as [->|Hn]; [rewrite fn_lookup_insert|by rewrite fn_lookup_insert_ne].
    specialize (D4 c). revert D4. generalize (wa c). clear. intros l. induction l as [|z l IH]; [done|].
    rewrite fmap_cons. intros [H1 H2]%stdpp.list.NoDup_cons. rewrite filter_cons. case_decide; [|by apply IH].
    rewrite fmap_cons. apply stdpp.list.NoDup_cons. split; [|by apply IH]. intros X. apply H1.
    apply elem_of_list_fmap in X as (e & -> & He). apply elem_of_list_filter in He as [_ He].
    apply elem_of_list_fmap. by exists e.
  - intros u y t' a Hu Ht. destruct (D5 _ _ _ _ Hu Ht) as (H1 & H2 & H3 & H4). split; [done|]. split; [done|]. split; [done|].
    intros w X. by eapply H4, F.
Qed.

Lemma di_wake s r c : di s -> alive s c r -> ~ ready s c r -> (forall u, ~ joins s r u) ->
  exists s', wake_thread s r = Ok s' /\ di s' /\ h_thr s' = h_thr s /\ h_cur s' = h_cur s /\ h_gen s' = h_gen s /\
    h_run s' = <[c := h_run s c ++ [r]]> (h_run s) /\ h_wait s' = <[c := filter (fun e => e.2 <> r) (h_wait s c)]> (h_wait s) /\
    h_tr s' = h_tr s ++ [VReady c r].
Proof.
  intros D A R J. pose proof A as (x & Hx & Ha). unfold wake_thread. rewrite Hx, Ha.
  destruct (di_wremove s r c D (d_aff _ D _ _ A)) as (s1 & E1 & D1 & T1 & C1 & R1 & G1 & W1 & Tr1). rewrite E1. simpl.
  destruct (di_mark s1 r c D1) as (s2 & E2 & D2 & T2 & C2 & W2 & G2 & R2 & Tr2).
  - unfold alive. by rewrite T1.
  - unfold ready. by rewrite R1.
  - intros w. unfold sleeps. rewrite W1, fn_lookup_insert. by intros [? _]%elem_of_list_filter.
  - intros u. unfold joins. rewrite T1. apply J.
  - exists s2. split; [done|]. split; [done|]. rewrite T2, C2, G2, R2, W2, Tr2, T1, C1, G1, R1, W1, Tr1. done.
Qed.

Lemma di_wakes s l : di s -> NoDup l -> Forall (wakeable s) l ->
  exists s', wake_threads s l = Ok s' /\ di s' /\ h_thr s' = h_thr s /\ h_cur s' = h_cur s /\ h_gen s' = h_gen s /\
    (forall c t, ready s c t -> ready s' c t) /\ (forall t c, t ∈ l -> alive s c t -> ready s' c t) /\
    (forall c t w, sleeps s' c t w -> sleeps s c t w) /\
    (forall c t, ready s' c t -> ready s c t \/ t ∈ l) /\
    (forall c, exists l', h_run s' c = h_run s c ++ l' /\ readied c (h_tr s') = readied c (h_tr s) ++ l' /\
                    dispatched c (h_tr s') = dispatched c (h_tr s)) /\
    (forall c t w, sleeps s c t w -> t ∉ l -> sleeps s' c t w).
Proof.
  revert s. induction l as [|r l IH]; intros s D ND F; simpl.
  - exists s. split_and!; try done.
    + intros t c H. by apply elem_of_nil in H.
    + by left.
    + intros c. exists []. by rewrite !app_nil_r.
  - apply stdpp.list.NoDup_cons in ND as [N1 N2]. inversion_clear F as [|? ? (c0 & A & R & J) F'].
    destruct (di_wake s r c0 D A R J) as (s1 & E1 & D1 & T1 & C1 & G1 & R1 & W1 & Tr1). rewrite E1. simpl.
    assert (RR : forall c t, ready s1 c t <-> ready s c t \/ (c = c0 /\ t = r)).
    { intros c t. unfold ready. rewrite R1. destruct (decide (c = c0)) as [->|Hn];
        [rewrite fn_lookup_insert, elem_of_app, elem_of_list_singleton|rewrite fn_lookup_insert_ne by done]; intuition congruence. }
    destruct (IH s1 D1 N2) as (s2 & E2 & D2 & T2 & C2 & G2 & R2 & Q2 & S2 & K2 & H2 & W2).
    { apply stdpp.list.Forall_forall. intros r' Hx. rewrite stdpp.list.Forall_forall in F'. destruct (F' r' Hx) as (c & A' & R' & J'). exists c. unfold alive, joins in *. rewrite T1.
      split; [done|]. split; [|done]. intros [X|[-> ->]]%RR; [done|]. apply N1, Hx. }
    exists s2. split_and!; try done; try congruence.
    + intros c t H. by apply R2, RR; left.
    + intros t c Ht A'. apply elem_of_cons in Ht as [->|Ht].
      * apply R2, RR. right. split; [|done]. by eapply alive_fun.
      * apply Q2; [done|]. unfold alive in *. by rewrite T1.
    + intros c t w H. apply S2 in H. unfold sleeps in *. rewrite W1 in H.
      destruct (decide (c = c0)) as [->|Hn]; [rewrite fn_lookup_insert in H|by rewrite fn_lookup_insert_ne in H].
      by apply elem_of_list_filter in H as [_ ?].
    + intros c t H. apply K2 in H as [H|H]; [|right; by right]. apply RR in H as [H|[-> ->]]; [by left|right; left].
    + intros c. destruct (H2 c) as (l' & X1 & X2 & X3). rewrite X1, X2, X3, R1, Tr1, readied_app, dispatched_app. simpl.
      rewrite app_nil_r. destruct (decide (c0 = c)) as [->|Hn].
      * rewrite fn_lookup_insert. exists (r :: l'). by rewrite <- !app_assoc.
      * rewrite fn_lookup_insert_ne by congruence. exists l'. by rewrite app_nil_r.
    + intros c t w H [Hn1 Hn2]%not_elem_of_cons. apply W2; [|done]. unfold sleeps in *. rewrite W1.
      destruct (decide (c = c0)) as [->|Hn]; [rewrite fn_lookup_insert|by rewrite fn_lookup_insert_ne].
      by apply elem_of_list_filter.
Qed.

Lemma di_joiners s l : di s -> NoDup l.*1 ->
  (forall t a, (t, a) ∈ l -> alive s a t /\ ~ ready s a t /\ (forall w, ~ sleeps s a t w) /\ (forall u, ~ joins s t u)) ->
  exists s', wake_joiners s l = Ok s' /\ di s' /\ h_thr s' = h_thr s /\ h_cur s' = h_cur s /\ h_gen s' = h_gen s /\
    h_wait s' = h_wait s /\ (forall c t, ready s' c t <-> ready s c t \/ (t, c) ∈ l) /\
    (forall c, exists l', h_run s' c = h_run s c ++ l' /\ readied c (h_tr s') = readied c (h_tr s) ++ l' /\
                    dispatched c (h_tr s') = dispatched c (h_tr s)).
Proof.
  revert s. induction l as [|[t0 c0] l IH]; intros s D ND F; simpl.
  - exists s. split_and!; try done; [intros c t; rewrite elem_of_nil; tauto|]. intros c. exists []. by rewrite !app_nil_r.
  - rewrite fmap_cons in ND. apply stdpp.list.NoDup_cons in ND as [N1 N2].
    destruct (F t0 c0 ltac:(left)) as (A & R & W & J).
    destruct (di_mark s t0 c0 D A R W J) as (s1 & E1 & D1 & T1 & C1 & W1 & G1 & R1 & Tr1). rewrite E1. simpl.
    assert (RR : forall c t, ready s1 c t <-> ready s c t \/ (c = c0 /\ t = t0)).
    { intros c t. unfold ready. rewrite R1. destruct (decide (c = c0)) as [->|Hn];
        [rewrite fn_lookup_insert, elem_of_app, elem_of_list_singleton|rewrite fn_lookup_insert_ne by done]; intuition congruence. }
    destruct (IH s1 D1 N2) as (s2 & E2 & D2 & T2 & C2 & G2 & W2 & R2 & H2).
    { intros t a Ht. destruct (F t a ltac:(by right)) as (A' & R' & W' & J'). unfold alive, joins, sleeps in *. rewrite T1, W1.
      split; [done|]. split; [|done]. intros [X|[-> ->]]%RR; [done|]. apply N1. simpl. apply elem_of_list_fmap. by exists (t0, c0). }
    exists s2. split_and!; try done; try congruence.
    + intros c t. rewrite R2, RR, elem_of_cons. split; [intros [[?|[-> ->]]|?]; auto|intros [?|[[= -> ->]|?]]; auto].
    + intros c. destruct (H2 c) as (l' & X1 & X2 & X3). rewrite X1, X2, X3, R1, Tr1, readied_app, dispatched_app. simpl.
      rewrite app_nil_r. destruct (decide (c0 = c)) as [->|Hn].
      * rewrite fn_lookup_insert. exists (t0 :: l'). by rewrite <- !app_assoc.
      * rewrite fn_lookup_insert_ne by congruence. exists l'. by rewrite app_nil_r.
Qed.

(** The thread [t] running on [c] stops running. *)
Lemma di_block s t c : di s -> runs s c t -> di (set_cur (put_gen s t) c None).
Proof.
  intros [D1 D2 D3 D4 D5 D6 D7 D8 D9 D10 D11] R. dstr s. ups.
  assert (CN : forall c' t', <[c := None]> cu c' = Some t' -> cu c' = Some t').
  { intros c' t'. destruct (decide (c' = c)) as [->|Hn]; [by rewrite fn_lookup_insert|by rewrite fn_lookup_insert_ne]. }
  split; unfold ready, sleeps, runs, alive, joins; cbn [put_gen set_cur h_thr h_gen h_run h_wait h_next h_irq h_cur h_tr]; try done.
  - intros c' t' w H. destruct (D3 _ _ _ H) as (H1 & H2 & H3). split; [done|]. split; [done|]. intros X. by apply H3, CN.
  - intros u y t' a Hu Ht. destruct (D5 _ _ _ _ Hu Ht) as (H1 & H2 & H3 & H4). split; [done|]. split; [done|].
    split; [|done]. intros X. by apply H3, CN.
  - intros c' t' H. by apply D8, CN.
  - intros c' t' A Hn. apply elem_of_union. destruct (decide (t' = t)) as [->|Hne]; [left; set_solver|right].
    eapply D9; [done|]. intros X. apply Hn. destruct (decide (c' = c)) as [->|Hnc]; [|by rewrite fn_lookup_insert_ne].
    rewrite R in X. congruence.
Qed.

Lemma di_irq th ge ru wa nx ir ir' cu tr : di (mkSch th ge ru wa nx ir cu tr) -> di (mkSch th ge ru wa nx ir' cu tr).
Proof. intros [D1 D2 D3 D4 D5 D6 D7 D8 D9 D10 D11]. by split. Qed.

Lemma di_spawn s aff irq : di s -> uni s -> aff < SCH_CORES ->
  exists s' o, sch_spawn s aff irq = Ok (s', o) /\ di s' /\
    (o = None -> MAX_THREADS < size (h_thr s)) /\ (forall t, o = Some t -> t = h_next s /\ ready s' aff t) /\
    (forall c t, ready s c t -> ready s' c t) /\ h_wait s' = h_wait s /\ h_cur s' = h_cur s /\
    (forall t x, h_thr s !! t = Some x -> h_thr s' !! t = Some x) /\
    (forall c t, ready s' c t -> ready s c t \/ t = h_next s) /\
    (forall c, exists l', h_run s' c = h_run s c ++ l' /\ readied c (h_tr s') = readied c (h_tr s) ++ l' /\
                    dispatched c (h_tr s') = dispatched c (h_tr s)).
Proof.
  intros D U Ha. pose proof (un_tid _ U) as UT. destruct D as [D1 D2 D3 D4 D5 D6 D7 D8 D9 D10 D11]. dstr s. unfold sch_spawn.
  assert (Hnx : th !! nx = None).
  { destruct (th !! nx) as [x|] eqn:E; [|done]. apply UT in E. lia. }
  rewrite Hnx. ups.
  assert (NX : forall c t, (exists x, th !! t = Some x /\ t_aff x = c) -> t <> nx).
  { intros c t H ->. destruct H as (x & H & _). congruence. }
  destruct (decide (size th <= MAX_THREADS)) as [Hs|Hs].
  - set (s1 := mkSch (<[nx := mkThr aff []]> th) ({[nx]} ∪ ge) ru wa (S nx) ir cu (tr ++ [VSpawn nx])).
    assert (AL : forall c t, (exists x, <[nx := mkThr aff []]> th !! t = Some x /\ t_aff x = c) <->
                   (exists x, th !! t = Some x /\ t_aff x = c) \/ (t = nx /\ c = aff)).
    { intros c t. split.
      - intros (x & H & Hc). destruct (decide (t = nx)) as [->|Hn].
        + rewrite lookup_insert in H. injection H as <-. by right.
        + rewrite lookup_insert_ne in H by done. left. eauto.
      - intros [(x & H & Hc)|[-> ->]]; [|eexists; by rewrite lookup_insert].
        exists x. rewrite lookup_insert_ne; [done|]. intros ->. congruence. }
    assert (JN : forall u y, <[nx := mkThr aff []]> th !! u = Some y -> forall t, t ∈ t_join y -> th !! u = Some y).
    { intros u y H t Ht. destruct (decide (u = nx)) as [->|Hn].
      - rewrite lookup_insert in H. injection H as <-. simpl in Ht. by apply elem_of_nil in Ht.
      - by rewrite lookup_insert_ne in H. }
    assert (JN1 : forall u t, joins s1 t u -> exists y, th !! u = Some y /\ t ∈ (t_join y).*1).
    { intros u t (y & H & Ht). simpl in H. pose proof Ht as Ht'. apply elem_of_list_fmap in Ht' as (e & -> & He).
      exists y. split; [by eapply JN|done]. }
    assert (DI : di s1).
    { split; unfold ready, sleeps, runs, alive; cbn [h_thr h_gen h_run h_wait h_next h_irq h_cur h_tr s1]; try done.
      - intros c t H. apply AL. left. by apply D1.
      - intros c t w H. destruct (D3 _ _ _ H) as (H1 & H2 & H3). split; [|done]. apply AL. by left.
      - intros u y t a Hu Ht. destruct (D5 u y t a) as (H1 & H2 & H3); [by eapply JN|done|]. split; [|done]. apply AL. by left.
      - intros u y H. destruct (decide (u = nx)) as [->|Hn].
        + rewrite lookup_insert in H. injection H as <-. apply NoDup_nil_2.
        + rewrite lookup_insert_ne in H by done. by eapply D6.
      - intros u u' t H H'. eapply D7; by apply JN1.
      - intros c t H. apply AL. left. by apply D8.
      - intros c t [H|[-> ->]]%AL Hr; [apply elem_of_union; right; by eapply D9|set_solver].
      - intros c t [H|[-> ->]]%AL; [by eapply D10|done].
      - intros c t [H|[-> ->]]%AL; [apply D11 in H; lia|lia]. }
    destruct (di_mark s1 nx aff DI) as (s2 & E2 & I2 & T2 & C2 & W2 & G2 & R2 & Tr2).
    + apply AL. by right.
    + intros X. simpl in X. apply D1 in X. by apply NX in X.
    + intros w X. simpl in X. apply D3 in X as [X _]. by apply NX in X.
    + intros u X. apply JN1 in X as (y & Hy & Ht). apply elem_of_list_fmap in Ht as ([t a] & -> & He). simpl in *.
      destruct (D5 _ _ _ _ Hy He) as [X _]. by apply NX in X.
    + fold s1. rewrite E2. destruct s2 as [th2 ge2 ru2 wa2 nx2 ir2 cu2 tr2]. cbn [h_thr h_gen h_run h_wait h_next h_irq h_cur h_tr] in *.
      eexists _, _. split; [reflexivity|]. split; [by eapply di_irq|]. split; [done|]. subst th2 cu2 wa2 ge2 ru2 tr2.
      cbn [h_thr h_gen h_run h_wait h_next h_irq h_cur h_tr s1] in *.
      assert (RR : forall c t, t ∈ <[aff := ru aff ++ [nx]]> ru c <-> t ∈ ru c \/ (c = aff /\ t = nx)).
      { intros c t. destruct (decide (c = aff)) as [->|Hn];
        [rewrite fn_lookup_insert, elem_of_app, elem_of_list_singleton|rewrite fn_lookup_insert_ne by done]; intuition congruence. }
      split_and!; try done.
      * intros t [= <-]. split; [done|]. apply RR. by right.
      * intros c t H. apply RR. by left.
      * intros t x H. rewrite lookup_insert_ne; [done|]. intros <-. congruence.
      * intros c t H. apply RR in H as [H|[-> ->]]; [by left|by right].
      * intros c. rewrite !readied_app, !dispatched_app. simpl. rewrite !app_nil_r.
        destruct (decide (aff = c)) as [->|Hn]; [rewrite fn_lookup_insert; by exists [nx]|].
        rewrite fn_lookup_insert_ne by congruence. exists []. by rewrite !app_nil_r.
  - eexists _, _. split; [reflexivity|]. split; [|split; [simpl; lia|]].
    + split; unfold ready, sleeps, runs, alive, joins; cbn [h_thr h_gen h_run h_wait h_next h_irq h_cur h_tr]; try done.
      intros c t H. apply D11 in H. lia.
    + split_and!; try done; [by left|]. intros c. exists []. simpl. by rewrite !app_nil_r.
Qed.

(** Putting the running thread to sleep. *)
Lemma di_sleep s t c w : di s -> uni s -> alive s c t -> ~ runs s c t -> ~ ready s c t -> (forall w, ~ sleeps s c t w) ->
  (forall u, ~ joins s t u) ->
  exists s', waitlist_insert s t c w = Ok s' /\ di s' /\ h_thr s' = h_thr s /\ h_run s' = h_run s /\ h_cur s' = h_cur s /\
    h_tr s' = h_tr s /\ (forall c' t' w', sleeps s' c' t' w' <-> sleeps s c' t' w' \/ (c' = c /\ t' = t /\ w' = w)).
Proof.
  intros [D1 D2 D3 D4 D5 D6 D7 D8 D9 D10 D11] U A NR R W J. pose proof (un_sort _ U c) as US. dstr s. unfold waitlist_insert.
  assert (Hc : c < SCH_CORES) by (by eapply D10). rewrite decide_True by done. ups.
  destruct (wl_insert_ok (w, t) (wa c)) as [l El]; [by apply W|done|]. rewrite El.
  pose proof (wl_insert_elem _ _ _ El) as LE.
  eexists. split; [done|]. cbn [h_thr h_gen h_run h_wait h_next h_irq h_cur h_tr].
  assert (SL : forall c' t' w', (w', t') ∈ <[c := l]> wa c' <-> (w', t') ∈ wa c' \/ (c' = c /\ t' = t /\ w' = w)).
  { intros c' t' w'. destruct (decide (c' = c)) as [->|Hn]; [rewrite fn_lookup_insert, LE|rewrite fn_lookup_insert_ne by done];
      intuition congruence. }
  split; [|done].
  split; unfold ready, sleeps, runs, alive, joins; cbn [h_thr h_gen h_run h_wait h_next h_irq h_cur h_tr]; try done.
  - intros c' t' w' [H|(-> & -> & ->)]%SL; [by apply (D3 _ _ _ H)|done].
  - intros c'. destruct (decide (c' = c)) as [->|Hn]; [rewrite fn_lookup_insert|by rewrite fn_lookup_insert_ne].
    assert (P : l ≡ₚ (w, t) :: wa c).
    { clear -El. revert l El. induction (wa c) as [|z l0 IH]; intros l El; simpl in El; [by injection El as <-|].
      destruct (wcmp z (w, t)); [done|by injection El as <-|]. destruct (wl_insert (w, t) l0) as [l1|]; [|done].
      injection El as <-. rewrite (IH _ eq_refl). constructor. }
    rewrite P, fmap_cons. apply stdpp.list.NoDup_cons. split; [|done]. simpl.
    intros ([w' t'] & -> & H)%elem_of_list_fmap. by eapply W.
  - intros u y t' a Hu Ht. destruct (D5 _ _ _ _ Hu Ht) as (H1 & H2 & H3 & H4). split; [done|]. split; [done|].
    split; [done|]. intros w' [H|(-> & -> & ->)]%SL; [by eapply H4|]. apply (J u). exists y. split; [done|].
    apply elem_of_list_fmap. by exists (t, c).
Qed.

Lemma blk_same s t c o : h_thr (set_cur (put_gen s t) c o) = h_thr s /\ h_run (set_cur (put_gen s t) c o) = h_run s /\
  h_tr (set_cur (put_gen s t) c o) = h_tr s /\ h_wait (set_cur (put_gen s t) c o) = h_wait s.
Proof. by destruct s. Qed.
Lemma winsert_block s t c w t0 c0 : waitlist_insert (set_cur (put_gen s t0) c0 None) t c w =
  match waitlist_insert s t c w with Ok s' => Ok (set_cur (put_gen s' t0) c0 None) | Err e => Err e | Panic => Panic end.
Proof. dstr s. simpl. case_decide; [|done]. by destruct (wl_insert _ _). Qed.

Lemma joiners_cur s l c o : wake_joiners (set_cur s c o) l =
  match wake_joiners s l with Ok s' => Ok (set_cur s' c o) | Err e => Err e | Panic => Panic end.
Proof.
  revert s. induction l as [|[t a] l IH]; intros s; simpl; [done|].
  replace (mark_runnable (set_cur s c o) t a) with
    (match mark_runnable s t a with Ok s' => Ok (set_cur s' c o) | Err e => Err e | Panic => Panic end).
  2: { dstr s. simpl. by case_decide. }
  destruct (mark_runnable s t a) as [s1| |]; simpl; [apply IH|done|done].
Qed.

(** A running or ready or sleeping thread does not join. *)
Lemma di_nojoin s c t : di s -> alive s c t -> (ready s c t \/ runs s c t \/ exists w, sleeps s c t w) -> forall u, ~ joins s t u.
Proof.
  intros D A H u (y & Hu & Ht). apply elem_of_list_fmap in Ht as ([t' a] & -> & He). simpl in *.
  destruct (d_join _ D _ _ _ _ Hu He) as (H1 & H2 & H3 & H4). assert (a = c) as -> by (by eapply alive_fun).
  destruct H as [H|[H|[w H]]]; [done|done|by eapply H4].
Qed.

(** The queue of each core is what was made runnable there and not dispatched yet. *)
Definition fifo (s : sch) : Prop := forall c, readied c (h_tr s) = dispatched c (h_tr s) ++ h_run s c.
(** Requests that take other threads out of the queue. *)
Definition no_removal (s : sch) (a : schact) : Prop :=
  match a with
  | HYield c YExit => forall t, runs s c t -> ~ ready s c t
  | HYield c (YUnrunnable r) => runs s c r
  | _ => True
  end.

Lemma fifo_append s s' : fifo s ->
  (forall c, exists l', h_run s' c = h_run s c ++ l' /\ readied c (h_tr s') = readied c (h_tr s) ++ l' /\
                    dispatched c (h_tr s') = dispatched c (h_tr s)) -> fifo s'.
Proof. intros F H c. destruct (H c) as (l' & -> & -> & ->). by rewrite (F c), app_assoc. Qed.
Lemma fifo_mark s s' c t : fifo s -> h_run s' = <[c := h_run s c ++ [t]]> (h_run s) -> h_tr s' = h_tr s ++ [VReady c t] -> fifo s'.
Proof.
  intros F R T. eapply fifo_append; [done|]. intros c'. rewrite R, T, readied_app, dispatched_app. simpl. rewrite app_nil_r.
  destruct (decide (c = c')) as [->|Hn]; [rewrite fn_lookup_insert; by exists [t]|].
  rewrite fn_lookup_insert_ne by congruence. exists []. by rewrite !app_nil_r.
Qed.
Lemma fifo_same s s' : fifo s -> h_run s' = h_run s -> h_tr s' = h_tr s -> fifo s'.
Proof. intros F R T c. by rewrite R, T, (F c). Qed.

Lemma filter_ne_id t (l : list nat) : t ∉ l -> filter (fun x => x <> t) l = l.
Proof.
  induction l as [|x l IH]; intros H; [done|]. apply not_elem_of_cons in H as [H1 H2].
  rewrite filter_cons_True by congruence. by rewrite IH.
Qed.

Lemma di_delete s c t x : di s -> runs s c t -> h_thr s !! t = Some x -> ~ ready s c t ->
  let 'mkSch th ge ru wa nx ir cu tr := s in
  di (set_cur (mkSch (delete t th) ge ru wa nx ir cu (tr ++ [VExit t])) c None).
Proof.
  intros D R Hx NR. pose proof (d_cur _ D _ _ R) as A.
  assert (NW : forall w, ~ sleeps s c t w) by (intros w H; by apply (d_wait _ D) in H as (_ & _ & ?)).
  pose proof (di_nojoin s c t D A ltac:(by right; left)) as NJ.
  assert (NA : forall c', ready s c' t -> c' = c) by (intros c' H; apply (d_run _ D) in H; by eapply alive_fun).
  assert (AF : forall c', alive s c' t -> c' = c) by (intros; by eapply alive_fun).
  destruct D as [D1 D2 D3 D4 D5 D6 D7 D8 D9 D10 D11]. dstr s. ups.
  assert (CN : forall c' t', <[c := None]> cu c' = Some t' -> cu c' = Some t' /\ t' <> t).
  { intros c' t'. destruct (decide (c' = c)) as [->|Hn]; [by rewrite fn_lookup_insert|rewrite fn_lookup_insert_ne by done].
    intros H. split; [done|]. intros ->. apply D8 in H. apply Hn, AF, H. }
  assert (AL : forall c' t', (exists x, th !! t' = Some x /\ t_aff x = c') -> t' <> t -> exists x, delete t th !! t' = Some x /\ t_aff x = c').
  { intros c' t' (y & H & Ha) Hn. exists y. by rewrite lookup_delete_ne. }
  assert (AL' : forall c' t', (exists x, delete t th !! t' = Some x /\ t_aff x = c') -> t' <> t /\ exists x, th !! t' = Some x /\ t_aff x = c').
  { intros c' t' (y & [Hn H]%lookup_delete_Some & Ha). split; [done|]. eauto. }
  split; unfold ready, sleeps, runs, alive, joins; cbn [set_cur h_thr h_gen h_run h_wait h_next h_irq h_cur h_tr]; try done.
  - intros c' t' H. apply AL; [by apply D1|]. intros ->. assert (c' = c) as -> by (by apply NA). done.
  - intros c' t' w H. destruct (D3 _ _ _ H) as (H1 & H2 & H3). split_and!; [apply AL; [done|]|done|].
    + intros ->. assert (c' = c) as -> by (by apply AF). by eapply NW.
    + intros [X _]%CN. done.
  - intros u y t' a [Hn Hu]%lookup_delete_Some Ht. destruct (D5 _ _ _ _ Hu Ht) as (H1 & H2 & H3 & H4). split_and!; try done.
    + apply AL; [done|]. intros ->. apply (NJ u). exists y. split; [done|]. apply elem_of_list_fmap. by exists (t, a).
    + intros [X _]%CN. done.
  - intros u y [_ H]%lookup_delete_Some. by eapply D6.
  - intros u u' t' (y & [_ H]%lookup_delete_Some & Ht) (y' & [_ H']%lookup_delete_Some & Ht'). eapply (D7 u u' t'); eauto.
  - intros c' t' [H Hn]%CN. apply AL; [by apply D8|done].
  - intros c' t' [Hn A']%AL' Hr. eapply D9; [done|]. intros X. apply Hr.
    destruct (decide (c' = c)) as [->|Hnc]; [congruence|]. by rewrite fn_lookup_insert_ne.
  - intros c' t' [Hn A']%AL'. by eapply D10.
  - intros c' t' [Hn A']%AL'. by eapply D11.
Qed.

Lemma di_step s a : di s -> uni s -> disciplined s a ->
  exists s', sch_step s a = Ok s' /\ di s' /\ (fifo s -> no_removal s a -> fifo s').
Proof.
  intros D U H. destruct a as [aff irq|c v|c now|c|c r]; cbn [sch_step].
  - destruct (di_spawn s aff irq D U H) as (s' & o & E & D' & _ & _ & _ & _ & _ & _ & _ & F). rewrite E. simpl.
    exists s'. split; [done|]. split; [done|]. intros FI _. by eapply fifo_append.
  - destruct (h_cur s c) eqn:Ec; [by exists s|]. destruct (h_irq s !! v) as [t|] eqn:Ev; [|by exists s].
    destruct (H t Ev Ec) as (A & R & J & W).
    destruct (di_mark s t c D A R W J) as (s1 & E1 & D1 & T1 & C1 & W1 & G1 & R1 & Tr1).
    exists s1. split; [done|]. split; [done|]. intros FI _. by eapply fifo_mark.
  - destruct (h_cur s c) eqn:Ec; [by exists s|]. destruct (reverse (h_wait s c)) as [|[w t] rest] eqn:Er; [by exists s|].
    destruct (decide (w <= now)%N); [|by exists s].
    assert (Ew : h_wait s c = reverse rest ++ [(w, t)]) by (rewrite <- (reverse_involutive (h_wait s c)), Er; by rewrite reverse_cons).
    pose proof (d_wnd _ D c) as ND. rewrite Ew, fmap_app in ND. apply NoDup_app in ND as (ND1 & ND2 & _).
    assert (Sl : sleeps s c t w) by (unfold sleeps; rewrite Ew; set_solver).
    destruct (d_wait _ D _ _ _ Sl) as (A & NR & NRu). pose proof (di_nojoin s c t D A ltac:(right; right; by exists w)) as NJ.
    destruct s as [th ge ru wa nx ir cu tr]. set (s1 := mkSch th ge ru (<[c := reverse rest]> wa) nx ir cu tr).
    cbn [h_wait] in *.
    assert (SL : forall c' e, e ∈ <[c := reverse rest]> wa c' -> e ∈ wa c').
    { intros c' e. destruct (decide (c' = c)) as [->|Hn]; [rewrite fn_lookup_insert, Ew|by rewrite fn_lookup_insert_ne].
      intros X. apply elem_of_app. by left. }
    assert (D1 : di s1).
    { destruct D as [D1 D2 D3 D4 D5 D6 D7 D8 D9 D10 D11]. ups.
      split; unfold ready, sleeps, runs, alive, joins; cbn [s1 h_thr h_gen h_run h_wait h_next h_irq h_cur h_tr]; try done.
      - intros c' t' w' X. by eapply D3, SL.
      - intros c'. destruct (decide (c' = c)) as [->|Hn]; [by rewrite fn_lookup_insert|by rewrite fn_lookup_insert_ne].
      - intros u y t' a Hu Ht. destruct (D5 _ _ _ _ Hu Ht) as (H1 & H2 & H3 & H4). split_and!; try done. intros w' X. by eapply H4, SL. }
    destruct (di_mark s1 t c D1) as (s2 & E2 & D2 & T2 & C2 & W2 & G2 & R2 & Tr2); [done|done| |done|].
    { intros w' X. unfold sleeps in X. cbn [s1 h_wait] in X. rewrite fn_lookup_insert in X. apply (ND2 t); [|by left].
      apply elem_of_list_fmap. by exists (w', t). }
    exists s2. split; [exact E2|]. split; [done|]. intros FI _. eapply (fifo_mark s1); done.
  - destruct (h_cur s c) eqn:Ec; [by exists s|]. destruct (h_run s c) as [|t rest] eqn:Er; [by exists s|].
    assert (R : ready s c t) by (unfold ready; rewrite Er; left). pose proof (d_run _ D _ _ R) as A.
    pose proof (d_nd _ D c) as ND. rewrite Er in ND. apply stdpp.list.NoDup_cons in ND as [N1 N2].
    assert (G : t ∈ h_gen s) by (eapply (d_gen _ D); [done|]; unfold runs; congruence).
    pose proof (di_nojoin s c t D A ltac:(by left)) as NJ.
    assert (AF : forall c', alive s c' t -> c' = c) by (intros; by eapply alive_fun).
    pose proof A as (x & Hx & Ha). dstr s. rewrite decide_True by done. rewrite Hx. eexists. split; [done|]. split.
    + destruct D as [D1 D2 D3 D4 D5 D6 D7 D8 D9 D10 D11]. ups.
      assert (RR : forall c' t', t' ∈ <[c := rest]> ru c' -> t' ∈ ru c').
      { intros c' t'. destruct (decide (c' = c)) as [->|Hn]; [rewrite fn_lookup_insert, Er; by right|by rewrite fn_lookup_insert_ne]. }
      assert (CC : forall c' t', <[c := Some t]> cu c' = Some t' -> cu c' = Some t' \/ (c' = c /\ t' = t)).
      { intros c' t'. destruct (decide (c' = c)) as [->|Hn]; [rewrite fn_lookup_insert; intros [= <-]; by right|].
        rewrite fn_lookup_insert_ne by done. by left. }
      split; unfold ready, sleeps, runs, alive, joins; cbn [h_thr h_gen h_run h_wait h_next h_irq h_cur h_tr]; try done.
      * intros c' t' X. by apply D1, RR.
      * intros c'. destruct (decide (c' = c)) as [->|Hn]; [by rewrite fn_lookup_insert|by rewrite fn_lookup_insert_ne].
      * intros c' t' w X. destruct (D3 _ _ _ X) as (H1 & H2 & H3). split_and!; [done| |].
        -- intros Y. by apply H2, RR.
        -- intros [Y|[-> ->]]%CC; [done|]. done.
      * intros u y t' a Hu Ht. destruct (D5 _ _ _ _ Hu Ht) as (H1 & H2 & H3 & H4). split_and!; try done.
        -- intros Y. by apply H2, RR.
        -- intros [Y|[-> ->]]%CC; [done|]. done.
      * intros c' t' [Y|[-> ->]]%CC; [by apply D8|done].
      * intros c' t' A' Hr. apply elem_of_difference. split.
        -- eapply D9; [done|]. intros Y. apply Hr. destruct (decide (c' = c)) as [->|Hn]; [congruence|by rewrite fn_lookup_insert_ne].
        -- intros ->%elem_of_singleton. apply Hr. rewrite (AF _ A'). by rewrite fn_lookup_insert.
    + intros FI _ c'. specialize (FI c'). cbn [h_tr h_run] in *. rewrite readied_app, dispatched_app. simpl. rewrite app_nil_r.
      destruct (decide (c = c')) as [->|Hn]; [rewrite fn_lookup_insert, FI, Er, <- app_assoc; done|].
      rewrite fn_lookup_insert_ne by congruence. by rewrite app_nil_r.
  - destruct (h_cur s c) as [t|] eqn:Ec; [|by exists s]. specialize (H t Ec). pose proof (d_cur _ D _ _ Ec) as A.
    pose proof A as (x & Hx & Ha). unfold handle_yield. rewrite Hx, Ha. pose proof (d_aff _ D _ _ A) as Hc.
    assert (NW : forall w, ~ sleeps s c t w) by (intros w X; by apply (d_wait _ D) in X as (_ & _ & ?)).
    pose proof (di_nojoin s c t D A ltac:(by right; left)) as NJ.
    destruct r.
    + destruct (di_unmark s t c D Hc) as (s1 & E1 & D1 & T1 & C1 & W1 & G1 & N1 & R1 & Tr1). rewrite E1. cbn [sbind].
      assert (Hru : runs s1 c t) by (unfold runs; by rewrite C1).
      assert (Hx1 : h_thr s1 !! t = Some x) by (by rewrite T1).
      assert (NR1 : ~ ready s1 c t) by (unfold ready; rewrite R1, fn_lookup_insert; by intros [? _]%elem_of_list_filter).
      pose proof (di_delete s1 c t x D1 Hru Hx1 NR1) as D2.
      assert (NJ1 : forall u, ~ joins s1 t u) by (intros u; unfold joins; rewrite T1; apply NJ).
      pose proof (d_join _ D1 t x) as DJ. pose proof (d_jnd _ D1 t x Hx1) as DN. pose proof (d_jone _ D1) as DO.
      destruct s1 as [th ge ru wa nx ir cu tr]. cbn [h_thr h_gen h_run h_wait h_next h_irq h_cur h_tr] in *.
      destruct (di_joiners _ (t_join x) D2 DN) as (s3 & E3 & D3 & T3 & C3 & G3 & W3 & R3 & F3).
      { intros t' a Ht. destruct (DJ _ _ Hx1 Ht) as ((y & Hy & Hya) & H2 & H3 & H4).
        assert (Hne : t' <> t).
        { intros ->. apply (NJ1 t). exists x. split; [done|]. apply elem_of_list_fmap. by exists (t, a). }
        split; [exists y; cbn; by rewrite lookup_delete_ne|]. split; [done|]. split; [done|].
        intros u (y' & Hy' & Ht'). cbn in Hy'. apply lookup_delete_Some in Hy' as [Hn' Hy']. apply Hn'. apply (DO t u t').
        - exists x. split; [done|]. apply elem_of_list_fmap. by exists (t', a).
        - by exists y'. }
      rewrite joiners_cur in E3. cbn [set_cur h_thr h_gen h_run h_wait h_next h_irq h_cur h_tr] in *.
      destruct (wake_joiners _ _) as [s4| |] eqn:E4; try done. injection E3 as <-. cbn [sbind snd fst].
      exists (set_cur s4 c None). split; [done|]. split; [done|]. intros FI NRm. eapply (fifo_append (mkSch (delete t th) ge ru wa nx ir cu (tr ++ [VExit t]))); [|exact F3].
      intros c'. cbn [h_tr h_run]. rewrite readied_app, dispatched_app. simpl. rewrite !app_nil_r, Tr1, R1, (FI c').
      specialize (NRm _ Ec). destruct (decide (c' = c)) as [->|Hn]; [rewrite fn_lookup_insert|by rewrite fn_lookup_insert_ne].
      by rewrite filter_ne_id.
    + destruct (di_mark s t c D A H NW NJ) as (s1 & E1 & D1 & T1 & C1 & W1 & G1 & R1 & Tr1). rewrite E1. cbn [sbind fst snd].
      rewrite T1, Hx. eexists. split; [done|]. split; [apply di_block; [done|unfold runs; by rewrite C1]|].
      intros FI _. eapply (fifo_mark s); [done| |]; destruct s1; done.
    + pose proof (di_block s t c D Ec) as DB.
      assert (UB : uni (set_cur (put_gen s t) c None)) by (by apply uni_cur, uni_gen).
      destruct (di_sleep (set_cur (put_gen s t) c None) t c until DB UB) as (s1 & E1 & D1 & T1 & R1 & C1 & Tr1 & S1).
      { dstr s. done. } { dstr s. unfold runs. simpl. by rewrite fn_lookup_insert. }
      { dstr s. done. } { dstr s. done. } { dstr s. done. }
      rewrite winsert_block in E1. destruct (waitlist_insert s t c until) as [s2| |] eqn:E2; try done. injection E1 as <-.
      cbn [sbind fst snd]. assert (Hx2 : h_thr s2 !! t = Some x) by (destruct (blk_same s2 t c None) as (<- & _); rewrite T1; by destruct (blk_same s t c None) as (-> & _)). rewrite Hx2.
      eexists. split; [done|]. split; [done|]. intros FI _. eapply (fifo_same s); [done|rewrite R1; apply blk_same|rewrite Tr1; apply blk_same].
    + destruct H as (c' & A' & R' & J').
      destruct (di_wake s t0 c' D A' R' J') as (s1 & E1 & D1 & T1 & C1 & G1 & R1 & W1 & Tr1). rewrite E1. cbn [sbind fst snd].
      exists s1. split; [done|]. split; [done|]. intros FI _. by eapply fifo_mark.
    + destruct H as (c' & (y & Hy & Hya)). rewrite Hy. destruct (decide (t0 = t)) as [->|Hn].
      * cbn [sbind fst snd]. rewrite Hx. eexists. split; [done|]. split; [by apply di_block|].
        intros FI _. eapply (fifo_same s); [done|by dstr s|by dstr s].
      * assert (Hc' : t_aff y < SCH_CORES) by (eapply (d_aff _ D); by exists y).
        destruct (di_unmark s t0 (t_aff y) D Hc') as (s1 & E1 & D1 & T1 & C1 & W1 & G1 & N1 & R1 & Tr1).
        rewrite E1. cbn [sbind fst snd]. exists s1. split; [done|]. split; [done|]. intros FI NRm. simpl in NRm.
        unfold runs in NRm. congruence.
    + destruct H as [ND F]. destruct (di_wakes s ts D ND F) as (s1 & E1 & D1 & T1 & C1 & G1 & R1 & Q1 & S1 & K1 & F1 & Z1).
      rewrite E1. cbn [sbind fst snd]. exists s1. split; [done|]. split; [done|]. intros FI _. by eapply fifo_append.
    + destruct (h_thr s !! t0) as [y|] eqn:Ey; cbn [sbind fst snd].
      2: { exists s. done. }
      specialize (H ltac:(by exists (t_aff y), y)). pose proof (di_block s t c D Ec) as DB.
      assert (NRB : ~ runs (set_cur (put_gen s t) c None) c t) by (dstr s; unfold runs; simpl; by rewrite fn_lookup_insert).
      dstr s. destruct DB as [D1 D2 D3 D4 D5 D6 D7 D8 D9 D10 D11].
      unfold ready, sleeps, runs, alive, joins in *; cbn [put_gen set_cur h_thr h_gen h_run h_wait h_next h_irq h_cur h_tr] in *.
      set (th' := <[t0 := mkThr (t_aff y) (t_join y ++ [(t, c)])]> th).
      assert (TA : forall c' t', (exists x, th' !! t' = Some x /\ t_aff x = c') <-> (exists x, th !! t' = Some x /\ t_aff x = c')).
      { intros c' t'. unfold th'. destruct (decide (t' = t0)) as [->|Hn].
        - rewrite lookup_insert, Ey. split; intros (z & [= <-] & Hz); eauto.
        - by rewrite lookup_insert_ne. }
      assert (JE : forall u t', (exists z, th' !! u = Some z /\ t' ∈ (t_join z).*1) ->
                     (exists z, th !! u = Some z /\ t' ∈ (t_join z).*1) \/ (u = t0 /\ t' = t)).
      { intros u t' (z & Hz & Ht). unfold th' in Hz. destruct (decide (u = t0)) as [->|Hn].
        - rewrite lookup_insert in Hz. injection Hz as <-. simpl in Ht. rewrite fmap_app in Ht.
          apply elem_of_app in Ht as [Ht|Ht]; [left; eauto|right]. apply elem_of_list_singleton in Ht. done.
        - rewrite lookup_insert_ne in Hz by done. left. eauto. }
      assert (Hth : exists z, th' !! t = Some z).
      { destruct (proj2 (TA (t_aff x) t) ltac:(eauto)) as (z & Hz & _). eauto. }
      destruct Hth as [z Hz]. cbn [sbind fst snd h_thr]. rewrite Hz. eexists. split; [reflexivity|]. split; [|by intros FI _].
      split; unfold ready, sleeps, runs, alive, joins; cbn [put_gen set_cur h_thr h_gen h_run h_wait h_next h_irq h_cur h_tr]; try done.
      * intros c' t' X. apply TA. by apply D1.
      * intros c' t' w X. destruct (D3 _ _ _ X) as (H1 & H2 & H3). split; [by apply TA|done].
      * intros u y' t' a Hu Ht. assert (X : (exists y', th !! u = Some y' /\ (t', a) ∈ t_join y') \/ (t' = t /\ a = c)).
        { unfold th' in Hu. destruct (decide (u = t0)) as [->|Hn].
          - rewrite lookup_insert in Hu. injection Hu as <-. simpl in Ht. apply elem_of_app in Ht as [Ht|Ht]; [left; eauto|right].
            apply elem_of_list_singleton in Ht. by injection Ht as <- <-.
          - rewrite lookup_insert_ne in Hu by done. left. eauto. }
        destruct X as [(y'' & H1 & H2)|[-> ->]].
        -- destruct (D5 _ _ _ _ H1 H2) as (H3 & H4 & H5). split; [by apply TA|done].
        -- split; [by apply TA|]. split; [done|]. split; done.
      * intros u y' Hu. unfold th' in Hu. destruct (decide (u = t0)) as [->|Hn].
        -- rewrite lookup_insert in Hu. injection Hu as <-. simpl. rewrite fmap_app. apply NoDup_app.
           split; [by eapply D6|]. split; [|apply NoDup_singleton]. intros t' Ht' Ht''. apply elem_of_list_singleton in Ht''.
           simpl in Ht''. subst t'. apply (NJ t0). eauto.
        -- rewrite lookup_insert_ne in Hu by done. by eapply D6.
      * intros u u' t' [X|[-> ->]]%JE [X'|[-> Y]]%JE; [by eapply D7| |by apply NJ in X'|done]. subst t'. by apply NJ in X.
      * intros c' t' X. apply TA. by apply D8.
      * intros c' t' X%TA. by eapply D9.
      * intros c' t' X%TA. by eapply D10.
      * intros c' t' X%TA. by eapply D11.
    + destruct H as [Ha' Hs]. destruct (di_spawn s aff irq D U Ha') as (s1 & o & E & D1 & O1 & O2 & _ & _ & _ & _ & _ & F).
      rewrite E. cbn [sbind fst snd]. destruct o as [t'|]; [|specialize (O1 eq_refl); lia]. cbn [sbind fst snd].
      exists s1. split; [done|]. split; [done|]. intros FI _. by eapply fifo_append.
Qed.

Lemma di_runs s l : di s -> uni s -> disciplined_run s l -> exists s', sch_run s l = Ok s' /\ di s' /\ uni s'.
Proof.
  revert s. induction l as [|a l IH]; intros s D U H; simpl; [by exists s|]. destruct H as [H1 H2].
  destruct (di_step s a D U H1) as (s1 & E1 & D1 & _). rewrite E1. simpl. apply IH; [done|by eapply uni_step|by apply H2].
Qed.
