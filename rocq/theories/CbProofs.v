(** Proofs for C72. *)
From Verif Require Import Base CbModel CbSpec.
Local Open Scope N_scope.

Definition tr : Type := thr * N * N.
Definition tt_ (x : tr) : thr := fst (fst x).
Definition sp_ (x : tr) : N := snd (fst x).
Definition ar_ (x : tr) : N := snd x.
Definition ap_ (x : tr) : N := t_apic (tt_ x).

Definition cl (s : st) : list tr := match b_cur s with Some x => [x] | None => [] end.
Definition started (a : ap) : bool := match a with ARust _ | AReg _ _ _ | AUp _ _ _ | APanic => true | _ => false end.
Definition isup (a : ap) : bool := match a with AUp _ _ _ => true | _ => false end.
Definition regpairs (l : list ev) : list (N * N) := omap (fun e => match e with EReg _ r k => Some (r, k) | _ => None end) l.

Lemma app_inv_last {A} (l1 l2 : list A) x y : l1 ++ [x] = l2 ++ [y] -> l1 = l2 /\ x = y.
Proof. apply app_inj_tail. Qed.

Lemma starts_app l k : starts (l ++ k) = starts l ++ starts k.
Proof. apply omap_app. Qed.
Lemma ups_app l k : ups (l ++ k) = ups l ++ ups k.
Proof. apply omap_app. Qed.
Lemma nexts_app l k : nexts (l ++ k) = nexts l ++ nexts k.
Proof. apply omap_app. Qed.
Lemma regpairs_app l k : regpairs (l ++ k) = regpairs l ++ regpairs k.
Proof. apply omap_app. Qed.

Lemma set_ap_eq f c a : set_ap f c a c = a.
Proof. unfold set_ap. by rewrite N.eqb_refl. Qed.
Lemma set_ap_ne f c a d : d <> c -> set_ap f c a d = f d.
Proof. unfold set_ap. intros H. destruct (N.eqb_spec d c); [done|reflexivity]. Qed.

Lemma lookup_arg_app l a v b :
  lookup_arg (l ++ [(a, v)]) b = match lookup_arg l b with Some x => Some x | None => if a =? b then Some v else None end.
Proof.
  unfold lookup_arg. induction l as [|[k w] l IH]; cbn [app find fst snd].
  - destruct (a =? b); reflexivity.
  - destruct (k =? b); [reflexivity|exact IH].
Qed.

Lemma is_free_spec a n h b m : is_free a n h = true -> (b, m) ∈ h -> a + n <= b \/ b + m <= a.
Proof.
  unfold is_free. rewrite forallb_forall. intros H Hin. apply elem_of_list_In in Hin. specialize (H _ Hin). cbn in H.
  apply orb_true_iff in H as [H|H]; apply N.leb_le in H; [left|right]; exact H.
Qed.

Section inv.
Context (g : cfg).

Definition regsof (x : tr) : regs := Regs (g_pml4 g) (sp_ x) (ar_ x) (g_flag g) (g_entry g).
Definition fullbox (x : tr) : mbox := Box (g_entry g) (ar_ x) (g_pml4 g) (sp_ x) (g_flag g).
Definition pregs (k : nat) (x : tr) (r : regs) : Prop :=
  (k <= 6)%nat /\ ((1 <= k)%nat -> r_cr3 r = g_pml4 g) /\ ((3 <= k)%nat -> r_rsp r = sp_ x) /\ ((4 <= k)%nat -> r_rdi r = ar_ x) /\
  ((5 <= k)%nat -> r_rsi r = g_flag g) /\ ((6 <= k)%nat -> r_rip r = g_entry g).
Definition pbox (k : nat) (x : tr) (b : mbox) : Prop :=
  (k <= 5)%nat /\ ((2 <= k)%nat -> m_entry b = g_entry g) /\ ((3 <= k)%nat -> m_arg b = ar_ x) /\
  ((4 <= k)%nat -> m_pml4 b = g_pml4 g) /\ ((5 <= k)%nat -> m_stack b = sp_ x).

Definition upst (s : st) (x : tr) : Prop := exists tok, aps s (ap_ x) = AUp (regsof x) (node_of (tt_ x)) tok.
Definition prep (s : st) (x : tr) : Prop :=
  good_stack (heap s) (sp_ x) /\
  lookup_arg (args s) (ar_ x) = Some (Arg (t_id (tt_ x)) (node_of (tt_ x)) (node_of (tt_ x))).
Definition apart (x y : tr) : Prop := sp_ x + 2097152 <= sp_ y \/ sp_ y + 2097152 <= sp_ x.

Definition booting (x : tr) (a : ap) (f : bool) : Prop :=
  match a with
  | AReset | AWait => f = false
  | AStep k r => pregs k x r /\ f = false
  | ARust r => r = regsof x /\ f = false
  | AReg r rep _ => r = regsof x /\ rep = node_of (tt_ x) /\ f = false
  | AUp r rep _ => r = regsof x /\ rep = node_of (tt_ x) /\ f = true
  | APanic => f = false
  | AOff | AWild => False
  end.

Definition phase (s : st) : Prop :=
  match b_pc s, b_cur s with
  | BNext, None | BPanic, None => True
  | BDone, None => b_rest s = []
  | BPrep k, Some x => aps s (ap_ x) = AOff /\ flag s = false /\ pbox k x (box s)
  | BInit, Some x => aps s (ap_ x) = AOff /\ flag s = false /\ box s = fullbox x
  | BStart, Some x => (aps s (ap_ x) = AReset \/ aps s (ap_ x) = AWait) /\ flag s = false /\ box s = fullbox x
  | BLook, Some x | BTime, Some x | BPanic, Some x => box s = fullbox x /\ booting x (aps s (ap_ x)) (flag s)
  | _, _ => False
  end.

Record inv (dn : list tr) (s : st) : Prop := MkI {
  i_todo : g_todo g = map tt_ (dn ++ cl s) ++ b_rest s;
  i_prep : Forall (prep s) (dn ++ cl s);
  i_pw : ForallOrdPairs apart (dn ++ cl s);
  i_args : NoDup (map ar_ (dn ++ cl s));
  i_up : Forall (upst s) dn;
  i_off : forall c, c ∉ map ap_ (dn ++ cl s) -> aps s c = AOff;
  i_phase : phase s;
  i_starts : starts (log s) = map ap_ dn ++ match b_cur s with Some x => if started (aps s (ap_ x)) then [ap_ x] else [] | None => [] end;
  i_ups : ups (log s) = map ap_ dn ++ match b_cur s with Some x => if isup (aps s (ap_ x)) then [ap_ x] else [] | None => [] end;
  i_nexts : nexts (log s) = map ap_ dn;
  i_ev : forall c r, EStart c r ∈ log s -> exists x, x ∈ dn ++ cl s /\ ap_ x = c /\ r = regsof x;
  i_reg : forall c rep tok, EReg c rep tok ∈ log s -> exists x, x ∈ dn ++ cl s /\ ap_ x = c /\ rep = node_of (tt_ x);
  i_nd : NoDup ((0, 1) :: regpairs (log s));
  i_tok : forall rep tok, (rep, tok) ∈ (0, 1) :: regpairs (log s) -> tok <= toks s rep }.

Hypothesis Hnd : NoDup (map t_apic (g_todo g)).
Hypothesis Hpml : g_pml4 g < 2 ^ 32.

Lemma inv_init hp : inv [] (init g hp).
Proof.
  constructor; cbn [init cl b_cur app map b_rest heap args aps log toks b_pc].
  - reflexivity.
  - constructor.
  - constructor.
  - constructor.
  - constructor.
  - reflexivity.
  - exact I.
  - reflexivity.
  - reflexivity.
  - reflexivity.
  - intros c r H. apply elem_of_nil in H. destruct H.
  - intros c r k H. apply elem_of_nil in H. destruct H.
  - cbn. apply NoDup_singleton.
  - cbn [regpairs omap list_omap]. intros rep tok H. apply elem_of_list_singleton in H. apply pair_equal_spec in H as [-> ->]. reflexivity.
Qed.

Lemma apics_nodup dn s : inv dn s -> NoDup (map ap_ (dn ++ cl s) ++ map t_apic (b_rest s)).
Proof.
  intros I. pose proof Hnd as H. rewrite (i_todo _ _ I), map_app, map_map in H. exact H.
Qed.

Lemma cur_not_dn dn s x : inv dn s -> b_cur s = Some x -> ap_ x ∉ map ap_ dn.
Proof.
  intros I E. pose proof (apics_nodup _ _ I) as H. unfold cl in H. rewrite E, map_app in H.
  apply NoDup_app in H as [H _]. apply NoDup_app in H as (_ & H & _). intros Hin. apply (H _ Hin). cbn. left.
Qed.

(** Steps that change only the box, the heap (growing) and the phase. *)
Lemma inv_same dn s s' :
  inv dn s -> b_rest s' = b_rest s -> b_cur s' = b_cur s -> aps s' = aps s -> args s' = args s -> toks s' = toks s -> log s' = log s ->
  (forall e, e ∈ heap s -> e ∈ heap s') -> phase s' -> inv dn s'.
Proof.
  intros I E1 E2 E3 E4 E5 E6 Hh P. destruct I.
  assert (Ec : cl s' = cl s) by (unfold cl; rewrite E2; reflexivity).
  constructor; rewrite ?Ec, ?E1, ?E2, ?E3, ?E5, ?E6; try assumption.
  - eapply stdpp.list.Forall_impl; [exact i_prep0|]. intros x [(a & Ha & Hr) Hl]. split.
    + exists a. split; [apply Hh, Ha|exact Hr].
    + rewrite E4. exact Hl.
  - eapply stdpp.list.Forall_impl; [exact i_up0|]. intros x [k Hk]. exists k. rewrite E3. exact Hk.
Qed.

(** Steps of the core being started. *)
Lemma inv_core dn s s' x a k :
  inv dn s -> b_cur s = Some x -> b_rest s' = b_rest s -> b_cur s' = b_cur s -> heap s' = heap s -> args s' = args s ->
  aps s' = set_ap (aps s) (ap_ x) a -> log s' = log s ++ k -> phase s' ->
  (starts k = if started a && negb (started (aps s (ap_ x))) then [ap_ x] else []) ->
  (ups k = if isup a && negb (isup (aps s (ap_ x))) then [ap_ x] else []) -> nexts k = [] ->
  (started (aps s (ap_ x)) = true -> started a = true) -> (isup (aps s (ap_ x)) = true -> isup a = true) ->
  (forall c r, EStart c r ∈ k -> c = ap_ x /\ r = regsof x) ->
  (forall c rep tok, EReg c rep tok ∈ k -> c = ap_ x /\ rep = node_of (tt_ x)) ->
  NoDup ((0, 1) :: regpairs (log s')) ->
  (forall rep tok, (rep, tok) ∈ (0, 1) :: regpairs (log s') -> tok <= toks s' rep) ->
  inv dn s'.
Proof.
  intros I Ex E1 E2 Eh Ea Eap El P Ks Ku Kn Ms Mu Ke Kr Hn Ht. pose proof (cur_not_dn _ _ _ I Ex) as Hx. destruct I.
  assert (Ec : cl s' = cl s) by (unfold cl; rewrite E2; reflexivity).
  constructor; rewrite ?Ec, ?E1, ?E2, ?Ex.
  - assumption.
  - eapply stdpp.list.Forall_impl; [exact i_prep0|]. intros y [Hs Hl]. split; rewrite ?Eh, ?Ea; assumption.
  - assumption.
  - assumption.
  - apply stdpp.list.Forall_forall. intros y Hy. destruct (proj1 (stdpp.list.Forall_forall _ _) i_up0 y Hy) as [k' Hk]. exists k'. rewrite Eap, set_ap_ne; [exact Hk|].
    intros E. apply Hx. rewrite <- E. apply elem_of_list_fmap. exists y. split; [reflexivity|exact Hy].
  - intros c Hc. rewrite Eap, set_ap_ne; [apply i_off0, Hc|]. intros ->. apply Hc.
    apply elem_of_list_fmap. exists x. split; [reflexivity|]. unfold cl. rewrite Ex. apply elem_of_app. right. left.
  - exact P.
  - rewrite El, starts_app, i_starts0, Ex, Eap, set_ap_eq, Ks.
    destruct (started (aps s (ap_ x))) eqn:S0; [rewrite (Ms eq_refl)|destruct (started a)]; cbn; rewrite ?app_nil_r; reflexivity.
  - rewrite El, ups_app, i_ups0, Ex, Eap, set_ap_eq, Ku.
    destruct (isup (aps s (ap_ x))) eqn:S0; [rewrite (Mu eq_refl)|destruct (isup a)]; cbn; rewrite ?app_nil_r; reflexivity.
  - rewrite El, nexts_app, Kn, app_nil_r. assumption.
  - intros c r H. rewrite El in H. apply elem_of_app in H as [H|H]; [apply i_ev0, H|].
    destruct (Ke _ _ H) as [-> ->]. exists x. split; [|split; reflexivity]. unfold cl. rewrite Ex. apply elem_of_app. right. left.
  - intros c rep tok H. rewrite El in H. apply elem_of_app in H as [H|H]; [eapply i_reg0, H|].
    destruct (Kr _ _ _ H) as [-> ->]. exists x. split; [|split; reflexivity]. unfold cl. rewrite Ex. apply elem_of_app. right. left.
  - exact Hn.
  - exact Ht.
Qed.

Lemma some_inj {A} (a b : A) : Some a = Some b -> a = b.
Proof. intros H. by injection H. Qed.

Lemma inv_bsp dn s s' : inv dn s -> bsp g s = Some s' -> exists dn', inv dn' s'.
Proof.
  intros I E. pose proof I as I0. pose proof (i_phase _ _ I) as P. unfold phase in P. unfold bsp in E.
  destruct (b_pc s) eqn:Epc; destruct (b_cur s) as [[[t sp] ar]|] eqn:Ecur; try discriminate E; try (destruct P; fail).
  - (* BNext *) destruct (b_rest s) eqn:Er; [|discriminate E]. apply some_inj in E. subst s'. exists dn.
    eapply inv_same; [exact I0|..]; cbn [b_rest b_cur aps args toks log heap]; try (symmetry; assumption); try reflexivity. tauto.
  - (* BPrep *) destruct P as (P1 & P2 & P3). destruct k as [|[|[|[|[|k]]]]]; apply some_inj in E; subst s'; exists dn;
      (eapply inv_same; [exact I0|..]; cbn [b_rest b_cur aps args toks log heap]; try (symmetry; assumption); try reflexivity; [tauto|]);
      unfold phase; cbn [b_pc b_cur aps flag box]; (split; [exact P1|split; [exact P2|]]);
      destruct P3 as (K & A1 & A2 & A3 & A4); unfold pbox, fullbox; cbn [m_entry m_arg m_pml4 m_stack m_lock].
    + repeat split; lia.
    + repeat split; lia.
    + repeat split; intros; try lia; first [apply A1; lia|apply A2; lia|apply A3; lia|reflexivity].
    + repeat split; intros; try lia; first [apply A1; lia|apply A2; lia|apply A3; lia|reflexivity].
    + repeat split; intros; try lia; first [apply A1; lia|apply A2; lia|apply A3; lia|reflexivity].
    + rewrite A1, A2, A3, A4 by lia. reflexivity.
  - (* BInit *) destruct P as (P1 & P2 & P3). apply some_inj in E; subst s'. exists dn.
    eapply (inv_core dn s _ (t, sp, ar) AReset []); try (exact I0 || exact Ecur || reflexivity); cbn [log heap args toks b_rest b_cur].
    all: rewrite ?Ecur; try reflexivity.
    + symmetry. apply app_nil_r.
    + unfold phase. cbn [b_pc b_cur aps flag box]. split; [left; apply set_ap_eq|split; assumption].
    + rewrite P1. intros H; discriminate H.
    + rewrite P1. intros H; discriminate H.
    + intros c r H. apply elem_of_nil in H. destruct H.
    + intros c r k H. apply elem_of_nil in H. destruct H.
    + apply (i_nd _ _ I0).
    + apply (i_tok _ _ I0).
  - (* BStart *) destruct P as (P1 & P2 & P3). apply some_inj in E; subst s'. exists dn.
    change (ap_ (t, sp, ar)) with (t_apic t) in P1. destruct P1 as [P1|P1]; rewrite P1.
    + eapply inv_same; [exact I0|..]; cbn [b_rest b_cur aps args toks log heap]; try (symmetry; assumption); try reflexivity; [tauto|].
      unfold phase. cbn [b_pc b_cur aps flag box]. split; [exact P3|]. change (ap_ (t, sp, ar)) with (t_apic t). rewrite P1. exact P2.
    + eapply (inv_core dn s _ (t, sp, ar) (AStep 0 _) []); try (exact I0 || exact Ecur || reflexivity); cbn [log heap args toks b_rest b_cur].
      all: rewrite ?Ecur; try reflexivity.
      * symmetry. apply app_nil_r.
      * unfold phase. cbn [b_pc b_cur aps flag box]. split; [exact P3|]. change (ap_ (t, sp, ar)) with (t_apic t). rewrite set_ap_eq.
        split; [repeat split; lia|exact P2].
      * change (ap_ (t, sp, ar)) with (t_apic t). rewrite P1. intros H; discriminate H.
      * change (ap_ (t, sp, ar)) with (t_apic t). rewrite P1. intros H; discriminate H.
      * intros c r H. apply elem_of_nil in H. destruct H.
      * intros c r k H. apply elem_of_nil in H. destruct H.
      * apply (i_nd _ _ I0).
      * apply (i_tok _ _ I0).
  - (* BLook *) destruct P as (P1 & P2). destruct (flag s) eqn:Ef; apply some_inj in E; subst s'.
    + assert (exists tok, aps s (t_apic t) = AUp (regsof (t, sp, ar)) (node_of t) tok) as [tok U].
      { change (ap_ (t, sp, ar)) with (t_apic t) in P2. destruct (aps s (t_apic t)); cbn in P2; try (destruct P2; fail); try discriminate P2;
          try (destruct P2 as [_ P2]; discriminate P2); try (destruct P2 as (_ & _ & P2); discriminate P2).
        destruct P2 as (-> & -> & _). exists tok. reflexivity. }
      exists (dn ++ [(t, sp, ar)]). pose proof I0 as I1. destruct I0.
      assert (Ec : cl s = [(t, sp, ar)]) by (unfold cl; rewrite Ecur; reflexivity). rewrite Ec in *.
      rewrite Ecur in *. change (ap_ (t, sp, ar)) with (t_apic t) in *. rewrite U in *.
      constructor; cbn [cl b_cur b_rest heap args aps log toks b_pc]; rewrite ?app_nil_r; try assumption.
      * apply stdpp.list.Forall_app. split; [exact i_up0|]. constructor; [|constructor]. exists tok. exact U.
      * unfold phase. cbn. exact Logic.I.
      * rewrite starts_app, i_starts0, map_app. cbn. rewrite app_nil_r. reflexivity.
      * rewrite ups_app, i_ups0, map_app. cbn. rewrite app_nil_r. reflexivity.
      * rewrite nexts_app, i_nexts0, map_app. reflexivity.
      * intros c r H. apply elem_of_app in H as [H|H]; [apply i_ev0, H|]. apply elem_of_list_singleton in H. discriminate H.
      * intros c r k H. apply elem_of_app in H as [H|H]; [eapply i_reg0, H|]. apply elem_of_list_singleton in H. discriminate H.
      * rewrite regpairs_app. cbn [regpairs omap list_omap]. rewrite app_nil_r. exact i_nd0.
      * rewrite regpairs_app. cbn [regpairs omap list_omap]. rewrite app_nil_r. exact i_tok0.
    + exists dn. eapply inv_same; [exact I0|..]; cbn [b_rest b_cur aps args toks log heap]; try (symmetry; assumption); try reflexivity; [tauto|].
      unfold phase. cbn [b_pc b_cur aps flag box]. split; assumption.
  - (* BTime *) destruct P as (P1 & P2). apply some_inj in E; subst s'.
    exists dn. eapply inv_same; [exact I0|..]; cbn [b_rest b_cur aps args toks log heap]; try (symmetry; assumption); try reflexivity; [tauto|].
    unfold phase. cbn [b_pc b_cur aps flag box]. split; assumption.
Qed.

Lemma active_is_cur dn s c :
  inv dn s -> (match aps s c with AStep _ _ | ARust _ | AReg _ _ _ | AReset => True | _ => False end) ->
  exists x, b_cur s = Some x /\ ap_ x = c.
Proof.
  intros I H. destruct (decide (c ∈ map ap_ (dn ++ cl s))) as [Hin|Hout].
  - apply elem_of_list_fmap in Hin as (x & -> & Hin). apply elem_of_app in Hin as [Hin|Hin].
    + destruct (proj1 (stdpp.list.Forall_forall _ _) (i_up _ _ I) x Hin) as [k E]. rewrite E in H. destruct H.
    + unfold cl in Hin. destruct (b_cur s) as [y|]; [|apply elem_of_nil in Hin; destruct Hin].
      apply elem_of_list_singleton in Hin as ->. exists y. split; reflexivity.
  - rewrite (i_off _ _ I c Hout) in H. destruct H.
Qed.

Lemma cur_prep dn s x : inv dn s -> b_cur s = Some x -> prep s x.
Proof.
  intros I E. pose proof (i_prep _ _ I) as H. unfold cl in H. rewrite E in H. apply stdpp.list.Forall_app in H as [_ H].
  rewrite stdpp.list.Forall_singleton in H. exact H.
Qed.

Lemma phase_boot s x : phase s -> b_cur s = Some x -> (match aps s (ap_ x) with AStep _ _ | ARust _ | AReg _ _ _ => True | _ => False end) ->
  box s = fullbox x /\ booting x (aps s (ap_ x)) (flag s).
Proof.
  unfold phase. intros P E H. rewrite E in P. destruct (b_pc s); try (destruct P; fail); try exact P.
  - destruct P as (P & _). rewrite P in H. destruct H.
  - destruct P as (P & _). rewrite P in H. destruct H.
  - destruct P as ([P|P] & _); rewrite P in H; destruct H.
Qed.

Lemma phase_keep s s' x :
  phase s -> b_cur s = Some x -> (match aps s (ap_ x) with AStep _ _ | ARust _ | AReg _ _ _ => True | _ => False end) ->
  b_pc s' = b_pc s -> b_cur s' = b_cur s -> box s' = box s -> booting x (aps s' (ap_ x)) (flag s') -> phase s'.
Proof.
  unfold phase. intros P E H E1 E2 E3 B. rewrite E1, E2, E3, E. rewrite E in P. destruct (b_pc s); try (destruct P; fail).
  - destruct P as (P & _). rewrite P in H. destruct H.
  - destruct P as (P & _). rewrite P in H. destruct H.
  - destruct P as ([P|P] & _); rewrite P in H; destruct H.
  - destruct P as (P & _). split; assumption.
  - destruct P as (P & _). split; assumption.
  - destruct P as (P & _). split; assumption.
Qed.

Lemma inv_ap dn s s' c : inv dn s -> core g c s = Some s' -> inv dn s'.
Proof.
  intros I E. pose proof I as I0.
  assert (H : match aps s c with AStep _ _ | ARust _ | AReg _ _ _ => True | _ => False end).
  { unfold core in E. destruct (aps s c); try discriminate E; exact Logic.I. }
  destruct (active_is_cur dn s c I) as (x & Ex & <-).
  { destruct (aps s c); try (destruct H; fail); exact Logic.I. }
  destruct (phase_boot s x (i_phase _ _ I) Ex H) as (B1 & B2).
  pose proof (fun s' => phase_keep s s' x (i_phase _ _ I) Ex H) as PK.
  destruct (cur_prep _ _ _ I Ex) as (_ & Ar).
  unfold core in E.
  destruct (aps s (ap_ x)) as [| | |k r|r|r rep tok|r rep tok| |] eqn:Ea; try (destruct H; fail); cbn [booting] in B2.
  - destruct B2 as ((K & A1 & A2 & A3 & A4 & A5) & F).
    destruct k as [|[|[|[|[|[|k]]]]]]; rewrite B1 in E; unfold fullbox in E; cbn [m_pml4 m_stack m_arg m_lock m_entry] in E.
    all: try (rewrite A1 in E by lia); try rewrite N.eqb_refl in E.
    all: try (rewrite A5 in E by lia); try rewrite N.eqb_refl in E.
    all: apply some_inj in E; subst s'.
    1-6: (eapply (inv_core dn s _ x (AStep _ _) []); try (exact I0 || exact Ex || reflexivity); cbn [log heap args toks b_rest b_cur b_pc];
      [symmetry; apply app_nil_r| | | | | |apply (i_nd _ _ I0)|apply (i_tok _ _ I0)];
      [|rewrite Ea; intros HH; discriminate HH|rewrite Ea; intros HH; discriminate HH|intros ? ? HH; apply elem_of_nil in HH; destruct HH|intros ? ? ? HH; apply elem_of_nil in HH; destruct HH]).
    1-6: (apply PK; cbn [b_pc b_cur box aps flag]; try reflexivity; [rewrite B1; reflexivity|]; rewrite set_ap_eq; cbn [booting]; split; [|exact F]; unfold pregs; cbn [r_cr3 r_rsp r_rdi r_rsi r_rip]).
    + repeat split; intros; try lia; apply N.mod_small; exact Hpml.
    + repeat split; intros; try lia; apply A1; lia.
    + repeat split; intros; try lia.
    + repeat split; intros; try lia; apply A2; lia.
    + repeat split; intros; try lia; first [apply A2; lia|apply A3; lia|apply A4; lia].
    + repeat split; intros; try lia; first [apply A2; lia|apply A3; lia|apply A4; lia].
    + assert (R : r = regsof x).
      { destruct r as [c3 rs rd ri rp]; cbn [r_cr3 r_rsp r_rdi r_rsi r_rip] in *. rewrite A1, A2, A3, A4, A5 by lia. reflexivity. }
      assert (Eb : r_rip r =? g_entry g = true) by (apply N.eqb_eq, A5; lia). rewrite ?Eb.
      eapply (inv_core dn s _ x (ARust r) [EStart (ap_ x) r]); try (exact I0 || exact Ex || reflexivity); cbn [log heap args toks b_rest b_cur b_pc aps].
      * apply PK; cbn [b_pc b_cur box aps flag]; try reflexivity; [rewrite B1; reflexivity|]. rewrite set_ap_eq. cbn [booting]. split; assumption.
      * rewrite Ea. reflexivity.
      * rewrite Ea. intros HH; discriminate HH.
      * intros c r' HH. apply elem_of_list_singleton in HH. injection HH as -> ->. split; [reflexivity|exact R].
      * intros c rr kk HH. apply elem_of_list_singleton in HH. discriminate HH.
      * rewrite regpairs_app. cbn [regpairs omap list_omap]. rewrite app_nil_r. apply (i_nd _ _ I0).
      * rewrite regpairs_app. cbn [regpairs omap list_omap]. rewrite app_nil_r. apply (i_tok _ _ I0).
  - destruct B2 as (R & F). rewrite R in E. cbn [regsof r_rdi] in E. rewrite Ar in E. cbn [a_rep] in E.
    destruct (toks s (node_of (tt_ x)) <? g_max g) eqn:Em; apply some_inj in E; subst s'.
    + eapply (inv_core dn s _ x (AReg _ _ _) [EReg (ap_ x) (node_of (tt_ x)) (toks s (node_of (tt_ x)) + 1)]); try (exact I0 || exact Ex || reflexivity);
        cbn [log heap args toks b_rest b_cur b_pc aps].
      * apply PK; cbn [b_pc b_cur box aps flag]; try reflexivity. rewrite set_ap_eq. cbn [booting]. split; [reflexivity|split; [reflexivity|exact F]].
      * rewrite Ea. reflexivity.
      * rewrite Ea. intros HH; discriminate HH.
      * intros c r' HH. apply elem_of_list_singleton in HH. discriminate HH.
      * intros c rr kk HH. apply elem_of_list_singleton in HH. injection HH as -> -> ->. split; reflexivity.
      * rewrite regpairs_app. cbn [regpairs omap list_omap]. rewrite app_comm_cons. apply NoDup_app. split; [apply (i_nd _ _ I0)|].
        split; [|apply NoDup_singleton]. intros [rep tok] Hin Hin2. apply elem_of_list_singleton in Hin2.
        apply pair_equal_spec in Hin2 as [-> ->]. pose proof (i_tok _ _ I0 _ _ Hin). lia.
      * rewrite regpairs_app. cbn [regpairs omap list_omap]. rewrite app_comm_cons. intros rep tok Hin. unfold set_tok.
        apply elem_of_app in Hin as [Hin|Hin].
        -- pose proof (i_tok _ _ I0 _ _ Hin). destruct (N.eqb_spec rep (node_of (tt_ x))); [subst rep; lia|assumption].
        -- apply elem_of_list_singleton in Hin. apply pair_equal_spec in Hin as [-> ->]. rewrite N.eqb_refl. lia.
    + eapply (inv_core dn s _ x APanic []); try (exact I0 || exact Ex || reflexivity); cbn [log heap args toks b_rest b_cur b_pc aps].
      * symmetry. apply app_nil_r.
      * apply PK; cbn [b_pc b_cur box aps flag]; try reflexivity. rewrite set_ap_eq. exact F.
      * rewrite Ea. reflexivity.
      * rewrite Ea. intros HH; discriminate HH.
      * intros ? ? HH; apply elem_of_nil in HH; destruct HH.
      * intros ? ? ? HH; apply elem_of_nil in HH; destruct HH.
      * apply (i_nd _ _ I0).
      * apply (i_tok _ _ I0).
  - destruct B2 as (R & Rp & F). rewrite R in E. cbn [regsof r_rsi] in E. rewrite N.eqb_refl in E. apply some_inj in E; subst s'.
    eapply (inv_core dn s _ x (AUp _ _ _) [EUp (ap_ x)]); try (exact I0 || exact Ex || reflexivity); cbn [log heap args toks b_rest b_cur b_pc aps].
    + apply PK; cbn [b_pc b_cur box aps flag]; try reflexivity. rewrite set_ap_eq. cbn [booting]. split; [reflexivity|split; [exact Rp|reflexivity]].
    + rewrite Ea. reflexivity.
    + rewrite Ea. reflexivity.
    + intros c r' HH. apply elem_of_list_singleton in HH. discriminate HH.
    + intros c rr kk HH. apply elem_of_list_singleton in HH. discriminate HH.
    + rewrite regpairs_app. cbn [regpairs omap list_omap]. rewrite app_nil_r. apply (i_nd _ _ I0).
    + rewrite regpairs_app. cbn [regpairs omap list_omap]. rewrite app_nil_r. apply (i_tok _ _ I0).
Qed.

Lemma stack_len : align_down stack_size = 2097152.
Proof. vm_compute. reflexivity. Qed.

Lemma inv_take dn s s' a ar : inv dn s -> take g (Some a) ar s = Some s' -> inv dn s'.
Proof.
  intros I E. pose proof I as I0. unfold take in E.
  pose proof (i_phase _ _ I) as P. unfold phase in P.
  destruct (b_pc s) eqn:Epc; try discriminate E. destruct (b_cur s) as [y|] eqn:Ecur; [destruct P|].
  destruct (b_rest s) as [|t rest] eqn:Er; [discriminate E|].
  destruct (g_nodes g <=? node_of t).
  { apply some_inj in E. subst s'. eapply inv_same; [exact I0|..]; cbn [b_rest b_cur aps args toks log heap]; try (symmetry; assumption); try reflexivity. tauto. }
  destruct (lookup_arg (args s) ar) eqn:La; [discriminate E|].
  change (s_len (owned_stack a stack_size)) with (align_down stack_size) in E.
  change (s_base (owned_stack a stack_size)) with (a + align_down stack_size) in E. rewrite stack_len in E.
  destruct (is_free a 2097152 (heap s) && (a mod salign =? 0) && (0 <? a)) eqn:C; [|discriminate E].
  apply andb_true_iff in C as [C C3]. apply andb_true_iff in C as [C1 C2]. apply N.ltb_lt in C3. apply N.eqb_eq in C2.
  apply some_inj in E. subst s'.
  set (x := (t, a + 2097152, ar)) in *.
  assert (Hx : aps s (ap_ x) = AOff).
  { apply (i_off _ _ I). pose proof (apics_nodup _ _ I) as ND. rewrite Er in ND. cbn [map] in ND. apply NoDup_app in ND as (_ & ND & _).
    intros Hin. apply (ND _ Hin). left. }
  destruct I0. assert (Ec : cl s = []) by (unfold cl; rewrite Ecur; reflexivity). rewrite Ec, app_nil_r, ?Ecur in *.
  constructor; cbn [cl b_cur b_rest heap args aps log toks b_pc].
  - rewrite map_app. cbn [map app]. rewrite <- app_assoc. cbn [app]. rewrite i_todo0, Er. reflexivity.
  - apply stdpp.list.Forall_app. split.
    + eapply stdpp.list.Forall_impl; [exact i_prep0|]. intros y [(b & Hb & Hr) Hl]. split; cbn [heap args].
      * exists b. split; [right; exact Hb|exact Hr].
      * rewrite lookup_arg_app, Hl. reflexivity.
    + constructor; [|constructor]. split; cbn [heap args].
      * exists a. split; [left|]. split; [reflexivity|]. split; [|exact C3]. unfold x, sp_; cbn [fst snd]. unfold salign in C2.
        rewrite N.add_mod, C2 by lia. vm_compute. reflexivity.
      * unfold x, ar_; cbn [snd fst tt_]. rewrite lookup_arg_app, La, N.eqb_refl. reflexivity.
  - assert (HF : Forall (fun y => apart y x) dn).
    { eapply stdpp.list.Forall_impl; [exact i_prep0|]. intros y [(b & Hb & Hs & _) _]. unfold apart, x, sp_ at 2 3; cbn [fst snd]. rewrite Hs.
      pose proof (is_free_spec _ _ _ _ _ C1 Hb). lia. }
    clear -i_pw0 HF. induction i_pw0 as [|y l Hy Hl IH]; cbn [app].
    + constructor; [constructor|constructor].
    + apply stdpp.list.Forall_cons in HF as [H1 H2]. constructor; [|apply IH, H2].
      apply stdpp.list.Forall_app. split; [exact Hy|]. constructor; [exact H1|constructor].
  - rewrite map_app. apply NoDup_app. split; [exact i_args0|]. split; [|apply NoDup_singleton].
    intros z Hz Hz2. apply elem_of_list_singleton in Hz2. subst z. apply elem_of_list_fmap in Hz as (y & Hy & Hin).
    destruct (proj1 (stdpp.list.Forall_forall _ _) i_prep0 y Hin) as [_ Hl]. rewrite <- Hy in Hl. unfold x, ar_ in Hl; cbn [snd] in Hl. congruence.
  - exact i_up0.
  - intros c Hc. apply i_off0. intros Hin. apply Hc. rewrite map_app. apply elem_of_app. left. exact Hin.
  - unfold phase. cbn [b_pc b_cur aps flag box]. split; [exact Hx|]. split; [reflexivity|]. unfold pbox. repeat split; lia.
  - rewrite Hx. cbn [started]. exact i_starts0.
  - rewrite Hx. cbn [isup]. exact i_ups0.
  - exact i_nexts0.
  - intros c r H. destruct (i_ev0 _ _ H) as (y & Hy & Hr). exists y. split; [apply elem_of_app; left; exact Hy|exact Hr].
  - intros c r k H. destruct (i_reg0 _ _ _ H) as (y & Hy & Hr). exists y. split; [apply elem_of_app; left; exact Hy|exact Hr].
  - exact i_nd0.
  - exact i_tok0.
Qed.

Lemma inv_step dn s s' l : inv dn s -> (forall ar, l <> LTake None ar) -> step g l s = Some s' -> exists dn', inv dn' s'.
Proof.
  intros I Hl E. pose proof I as I0. destruct l as [stk ar| | | |c|c|a n]; cbn [step] in E.
  - destruct stk as [a|]; [|destruct (Hl ar eq_refl)]. exists dn. eapply inv_take; eassumption.
  - pose proof (i_phase _ _ I) as P. unfold phase in P.
    destruct (b_pc s) eqn:Epc; try discriminate E. destruct (b_rest s) eqn:Er; [discriminate E|]. apply some_inj in E. subst s'.
    exists dn. eapply inv_same; [exact I0|..]; cbn [b_rest b_cur aps args toks log heap]; try (symmetry; assumption); try reflexivity; [tauto|].
    unfold phase. cbn [b_pc b_cur]. destruct (b_cur s); [destruct P|exact Logic.I].
  - eapply inv_bsp; eassumption.
  - pose proof (i_phase _ _ I) as P. unfold phase in P.
    destruct (b_pc s) eqn:Epc; try discriminate E. apply some_inj in E. subst s'.
    exists dn. eapply inv_same; [exact I0|..]; cbn [b_rest b_cur aps args toks log heap]; try (symmetry; assumption); try reflexivity; [tauto|].
    unfold phase. cbn [b_pc b_cur box aps flag]. destruct (b_cur s); [exact P|exact Logic.I].
  - destruct (aps s c) eqn:Ea; try discriminate E. apply some_inj in E. subst s'.
    destruct (active_is_cur dn s c I) as (x & Ex & <-); [rewrite Ea; exact Logic.I|].
    exists dn. eapply (inv_core dn s _ x AWait []); try (exact I0 || exact Ex || reflexivity); cbn [log heap args toks b_rest b_cur b_pc aps].
    + symmetry. apply app_nil_r.
    + pose proof (i_phase _ _ I) as P. unfold phase in *. cbn [b_pc b_cur box aps flag]. rewrite Ex in *.
      destruct (b_pc s); try (destruct P; fail); rewrite ?set_ap_eq.
      * destruct P as (P & _). congruence.
      * destruct P as (P & _). congruence.
      * destruct P as (P & Q). split; [right; reflexivity|exact Q].
      * destruct P as (P & Q). split; [exact P|]. rewrite Ea in Q. exact Q.
      * destruct P as (P & Q). split; [exact P|]. rewrite Ea in Q. exact Q.
      * destruct P as (P & Q). split; [exact P|]. rewrite Ea in Q. exact Q.
    + rewrite Ea. intros HH; discriminate HH.
    + rewrite Ea. intros HH; discriminate HH.
    + intros ? ? HH; apply elem_of_nil in HH; destruct HH.
    + intros ? ? ? HH; apply elem_of_nil in HH; destruct HH.
    + apply (i_nd _ _ I0).
    + apply (i_tok _ _ I0).
  - exists dn. eapply inv_ap; eassumption.
  - destruct (is_free a n (heap s)); [|discriminate E]. apply some_inj in E. subst s'.
    exists dn. eapply inv_same; [exact I0|..]; cbn [b_rest b_cur aps args toks log heap]; try reflexivity.
    + intros e He. right. exact He.
    + exact (i_phase _ _ I).
Qed.

Lemma inv_run ls : forall dn s s', inv dn s -> stacks_given ls -> run g ls s = Some s' -> exists dn', inv dn' s'.
Proof.
  induction ls as [|l ls IH]; intros dn s s' I H E; cbn [run] in E.
  - apply some_inj in E. subst s'. exists dn. exact I.
  - destruct (step g l s) as [s1|] eqn:Es; [|discriminate E].
    destruct (inv_step dn s s1 l I) as [dn1 I1]; [|exact Es|].
    + intros ar ->. apply (H ar). left.
    + eapply IH; [exact I1| |exact E]. intros ar Hin. apply (H ar). right. exact Hin.
Qed.
End inv.

(** * Progress *)
Definition rank (a : ap) : nat :=
  match a with AStep k _ => 9 - k | ARust _ => 2 | AReg _ _ _ => 1 | _ => 0 end%nat.

Section progress.
Context (g : cfg).
Hypothesis Hnd : NoDup (map t_apic (g_todo g)).
Hypothesis Hpml : g_pml4 g < 2 ^ 32.

Lemma step_rank dn s x n :
  inv g dn s -> b_cur s = Some x -> b_pc s = BLook -> rank (aps s (ap_ x)) = S n ->
  ((S n <= 1)%nat \/ toks s (node_of (tt_ x)) < g_max g) ->
  exists s', core g (ap_ x) s = Some s' /\ b_cur s' = Some x /\ b_pc s' = BLook /\ b_rest s' = b_rest s /\ rank (aps s' (ap_ x)) = n /\
    ((n <= 1)%nat \/ toks s' (node_of (tt_ x)) < g_max g) /\ (n = 0%nat -> flag s' = true).
Proof.
  intros I Ex Ep Er Ht.
  assert (H : match aps s (ap_ x) with AStep _ _ | ARust _ | AReg _ _ _ => True | _ => False end).
  { destruct (aps s (ap_ x)); cbn in Er; try discriminate Er; exact Logic.I. }
  destruct (phase_boot g s x (i_phase _ _ _ I) Ex H) as (B1 & B2). destruct (cur_prep _ _ _ _ I Ex) as (_ & Ar).
  unfold core. destruct (aps s (ap_ x)) as [| | |k r|r|r rep tok|r rep tok| |] eqn:Ea; try (destruct H; fail); cbn [booting] in B2.
  - destruct B2 as ((K & A1 & A2 & A3 & A4 & A5) & F). cbn [rank] in Er. destruct Ht as [Ht|Ht]; [lia|].
    destruct k as [|[|[|[|[|[|k]]]]]]; try (assert (k = 0%nat) as -> by lia).
    all: try (rewrite (proj2 (N.eqb_eq _ _) (A1 ltac:(lia)))); try (rewrite (proj2 (N.eqb_eq _ _) (A5 ltac:(lia)))).
    all: (eexists; split; [reflexivity|]; cbn [b_cur b_pc b_rest aps toks flag]; split; [exact Ex|]; split; [exact Ep|]; split; [reflexivity|];
      rewrite set_ap_eq; cbn [rank]; split; [lia|]; split; [right; exact Ht|intros ->; cbn in Er; lia]).
  - destruct B2 as (-> & F). cbn [regsof r_rdi]. rewrite Ar. cbn [a_rep rank] in *. destruct Ht as [Ht|Ht]; [lia|].
    rewrite (proj2 (N.ltb_lt _ _) Ht). eexists. split; [reflexivity|]. cbn [b_cur b_pc b_rest aps toks flag]. split; [exact Ex|]. split; [exact Ep|].
    split; [reflexivity|]. rewrite set_ap_eq. cbn [rank]. split; [lia|]. split; [left; lia|intros ->; lia].
  - destruct B2 as (-> & -> & F). cbn [regsof r_rsi]. rewrite N.eqb_refl. cbn [rank] in Er.
    eexists. split; [reflexivity|]. cbn [b_cur b_pc b_rest aps toks flag]. split; [exact Ex|]. split; [exact Ep|].
    split; [reflexivity|]. rewrite set_ap_eq. cbn [rank]. split; [lia|]. split; [left; lia|intros _; reflexivity].
Qed.

Lemma run_app ls1 : forall ls2 s, run g (ls1 ++ ls2) s = match run g ls1 s with Some s' => run g ls2 s' | None => None end.
Proof. induction ls1 as [|l ls1 IH]; intros ls2 s; cbn [run app]; [reflexivity|]. destruct (step g l s); [apply IH|reflexivity]. Qed.

Lemma run_rank n : forall dn s x,
  inv g dn s -> b_cur s = Some x -> b_pc s = BLook -> rank (aps s (ap_ x)) = n ->
  ((n <= 1)%nat \/ toks s (node_of (tt_ x)) < g_max g) -> (n = 0%nat -> flag s = true) ->
  exists s', run g (repeat (LAp (ap_ x)) n) s = Some s' /\ b_cur s' = Some x /\ b_pc s' = BLook /\ b_rest s' = b_rest s /\ flag s' = true.
Proof.
  induction n as [|n IH]; intros dn s x I Ex Ep Er Ht H0.
  - exists s. cbn. split; [reflexivity|]. repeat split; try assumption. apply H0. reflexivity.
  - destruct (step_rank dn s x n I Ex Ep Er Ht) as (s1 & E & E1 & E2 & E3 & E4 & E5 & E6).
    destruct (IH dn s1 x (inv_ap g Hnd Hpml dn s s1 _ I E) E1 E2 E4 E5 E6) as (s' & R & R1 & R2 & R3 & R4).
    exists s'. split; [|split; [exact R1|split; [exact R2|split; [congruence|exact R4]]]]. cbn [repeat run step]. rewrite E. exact R.
Qed.
End progress.

(** * Stacks *)
Lemma align_down_spec x : align_down x mod 16 = 0 /\ align_down x <= x /\ x < align_down x + 16.
Proof.
  unfold align_down, salign. split; [apply N.mod_mul; lia|]. pose proof (N.div_mod x 16 ltac:(lia)). pose proof (N.mod_lt x 16 ltac:(lia)).
  set (q := x / 16) in *. set (r := x mod 16) in *. lia.
Qed.
Lemma align_up_spec x : align_up x mod 16 = 0 /\ x <= align_up x /\ align_up x < x + 16.
Proof.
  unfold align_up. pose proof (align_down_spec (x + salign - 1)) as (A & B & C). unfold salign in *. split; [exact A|]. lia.
Qed.
