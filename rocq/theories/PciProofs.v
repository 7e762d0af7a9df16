(** Proofs for C73. *)
From Verif Require Import Base PciModel PciSpec.
Local Open Scope N_scope.

Lemma wants_asked c x : wants c x = true <-> asked c x.
Proof. destruct c; cbn; rewrite andb_true_iff, !N.eqb_eq; reflexivity. Qed.

Lemma set_thr_eq f t x : set_thr f t x t = x.
Proof. unfold set_thr. by rewrite Nat.eqb_refl. Qed.
Lemma set_thr_ne f t x u : u <> t -> set_thr f t x u = f u.
Proof. unfold set_thr. intros H. destruct (Nat.eqb_spec u t); [done|reflexivity]. Qed.

Record pinv (devs : list dev) (s : pst) : Prop := MkP {
  v_src : forall o x, has s o x -> x ∈ devs;
  v_one : forall o1 o2 x, has s o1 x -> has s o2 x -> o1 = o2;
  v_all : forall x, x ∈ devs -> exists o, has s o x;
  v_tab : forall i j x, p_tab s !! i = Some (Some x) -> p_tab s !! j = Some (Some x) -> i = j;
  v_asked : forall k t c l x, p_log s !! k = Some (t, c, l) -> x ∈ l -> asked c x;
  v_asked_r : forall t c i l x, p_thr s t = TScan c i l -> x ∈ l -> asked c x;
  v_nd : forall k t c l, p_log s !! k = Some (t, c, l) -> NoDup l;
  v_nd_r : forall t c i l, p_thr s t = TScan c i l -> NoDup l;
  v_onedev : forall k t v d l, p_log s !! k = Some (t, One v d, l) -> (length l <= 1)%nat;
  v_one_r : forall t v d i l, p_thr s t = TScan (One v d) i l -> l = [];
  v_left : forall k t c l x, p_log s !! k = Some (t, c, l) -> (l = [] \/ match c with Many _ _ => True | One _ _ => False end) ->
             asked c x -> ~ has s Table x;
  v_left_r : forall t c i l j x, p_thr s t = TScan c i l -> (j < i)%nat -> p_tab s !! j = Some (Some x) -> ~ asked c x }.

Lemma pinv_init devs tab : NoDup devs -> pci_init devs = Ok tab -> pinv devs (pst0 tab).
Proof.
  intros ND E. unfold pci_init in E. destruct (length devs <=? MAX_PCI_DEVICES)%nat; [|discriminate E]. injection E as <-.
  assert (T : forall x, Some x ∈ map Some devs <-> x ∈ devs).
  { intros x. rewrite elem_of_list_fmap. split; [intros (y & [= ->] & H); exact H|intros H; exists x; split; [reflexivity|exact H]]. }
  constructor; cbn [pst0 p_tab p_thr p_log].
  - intros [|k|t] x; cbn; [apply T| |]; [intros (? & ? & ? & H & _); rewrite lookup_nil in H; discriminate H|intros (? & ? & ? & H & _); discriminate H].
  - intros [|k|t] [|k2|t2] x; cbn; try reflexivity; intros H1 H2; exfalso.
    + destruct H2 as (? & ? & ? & H & _); rewrite lookup_nil in H; discriminate H.
    + destruct H2 as (? & ? & ? & H & _); discriminate H.
    + destruct H1 as (? & ? & ? & H & _); rewrite lookup_nil in H; discriminate H.
    + destruct H1 as (? & ? & ? & H & _); rewrite lookup_nil in H; discriminate H.
    + destruct H1 as (? & ? & ? & H & _); rewrite lookup_nil in H; discriminate H.
    + destruct H1 as (? & ? & ? & H & _); discriminate H.
    + destruct H1 as (? & ? & ? & H & _); discriminate H.
    + destruct H1 as (? & ? & ? & H & _); discriminate H.
  - intros x H. exists Table. cbn. apply T, H.
  - intros i j x Hi Hj. change (map Some devs) with (Some <$> devs) in *. rewrite list_lookup_fmap in Hi, Hj.
    destruct (devs !! i) eqn:E1; [|discriminate Hi]. destruct (devs !! j) eqn:E2; [|discriminate Hj].
    injection Hi as ->. injection Hj as ->. eapply NoDup_lookup; eassumption.
  - intros k t c l x H. rewrite lookup_nil in H. discriminate H.
  - intros t c i l x H. discriminate H.
  - intros k t c l H. rewrite lookup_nil in H. discriminate H.
  - intros t c i l H. discriminate H.
  - intros k t v d l H. rewrite lookup_nil in H. discriminate H.
  - intros t v d i l H. discriminate H.
  - intros k t c l x H. rewrite lookup_nil in H. discriminate H.
  - intros t c i l j x H. discriminate H.
Qed.

Lemma log_snoc {A} (l : list A) e k y : (l ++ [e]) !! k = Some y -> l !! k = Some y \/ k = length l /\ y = e.
Proof.
  intros H. apply lookup_app_Some in H as [H|[Hk H]]; [left; exact H|]. right.
  apply list_lookup_singleton_Some in H as [H ->]. split; [lia|reflexivity].
Qed.

(** Moving: a call takes [x] out of slot [i] and keeps it ([keep]) or returns with it; or moves on; or returns. *)
Lemma pinv_step devs s t c : pinv devs s -> pinv devs (pci_step t c s).
Proof.
  intros I. unfold pci_step. destruct (p_thr s t) as [|cc i acc] eqn:Et.
  - (* call *) assert (H : forall o x, has (Pst (p_tab s) (set_thr (p_thr s) t (TScan c 0 [])) (p_log s)) o x <-> has s o x).
    { intros [|k|u] x; cbn; try reflexivity. destruct (decide (u = t)) as [->|Hu].
      - rewrite set_thr_eq, Et. split; [intros (? & ? & ? & [= <- <- <-] & H); apply elem_of_nil in H; destruct H|intros (? & ? & ? & H & _); discriminate H].
      - rewrite set_thr_ne by exact Hu. reflexivity. }
    destruct I. constructor; cbn [p_tab p_thr p_log]; try assumption.
    + intros o x Hx. eapply v_src0, H, Hx.
    + intros o1 o2 x H1 H2. eapply v_one0; apply H; eassumption.
    + intros x Hx. destruct (v_all0 x Hx) as [o Ho]. exists o. apply H, Ho.
    + intros u c' i l x. destruct (decide (u = t)) as [->|Hu]; [rewrite set_thr_eq; intros [= <- <- <-] Hx; apply elem_of_nil in Hx; destruct Hx|].
      rewrite set_thr_ne by exact Hu. apply v_asked_r0.
    + intros u c' i l. destruct (decide (u = t)) as [->|Hu]; [rewrite set_thr_eq; intros [= <- <- <-]; constructor|].
      rewrite set_thr_ne by exact Hu. apply v_nd_r0.
    + intros u v d i l. destruct (decide (u = t)) as [->|Hu]; [rewrite set_thr_eq; intros [= _ _ <-]; reflexivity|].
      rewrite set_thr_ne by exact Hu. apply v_one_r0.
    + intros u c' i l j x. destruct (decide (u = t)) as [->|Hu]; [rewrite set_thr_eq; intros [= <- <- <-]; lia|].
      rewrite set_thr_ne by exact Hu. apply v_left_r0.
  - destruct (p_tab s !! i) as [[x|]|] eqn:Ei.
    + (* a device *) destruct (wants cc x) eqn:Ew.
      * assert (Hxs : x ∈ devs). { apply (v_src _ _ I Table). cbn. eapply elem_of_list_lookup_2, Ei. }
        assert (Htab : forall y, has s Table y <-> Some y ∈ <[i:=None]> (p_tab s) \/ y = x).
        { intros y. cbn. split.
          - intros Hy. apply elem_of_list_lookup_1 in Hy as [j Hj]. destruct (decide (j = i)) as [->|Hji]; [right; congruence|].
            left. apply elem_of_list_lookup. exists j. rewrite list_lookup_insert_ne by congruence. exact Hj.
          - intros [Hy| ->]; [|eapply elem_of_list_lookup_2, Ei]. apply elem_of_list_lookup_1 in Hy as [j Hj].
            destruct (decide (j = i)) as [->|Hji].
            + rewrite list_lookup_insert in Hj by (eapply lookup_lt_Some, Ei). discriminate Hj.
            + rewrite list_lookup_insert_ne in Hj by congruence. eapply elem_of_list_lookup_2, Hj. }
        assert (Hx' : ~ Some x ∈ <[i:=None]> (p_tab s)).
        { intros Hy. apply elem_of_list_lookup_1 in Hy as [j Hj]. destruct (decide (j = i)) as [->|Hji].
          - rewrite list_lookup_insert in Hj by (eapply lookup_lt_Some, Ei). discriminate Hj.
          - rewrite list_lookup_insert_ne in Hj by congruence. apply Hji. eapply (v_tab _ _ I); eassumption. }
        assert (Hsub : forall j y, <[i:=None]> (p_tab s) !! j = Some (Some y) -> p_tab s !! j = Some (Some y)).
        { intros j y Hj. destruct (decide (j = i)) as [->|Hji]; [rewrite list_lookup_insert in Hj by (eapply lookup_lt_Some, Ei); discriminate Hj|].
          rewrite list_lookup_insert_ne in Hj by congruence. exact Hj. }
        assert (Hnotr : forall o, o <> Table -> ~ has s o x).
        { intros o Ho Hh. apply Ho. eapply (v_one _ _ I); [exact Hh|]. cbn. eapply elem_of_list_lookup_2, Ei. }
        assert (Hask : asked cc x) by (apply wants_asked, Ew).
        destruct cc as [v d|v d].
        -- (* one: returns with it *)
           assert (Eacc : acc = []) by (eapply (v_one_r _ _ I); exact Et). subst acc.
           set (s' := Pst _ _ _).
           assert (H : forall o y, has s' o y <-> match o with Table => Some y ∈ <[i:=None]> (p_tab s)
                        | Call k => has s (Call k) y \/ k = length (p_log s) /\ y = x | Running u => has s (Running u) y end).
           { intros [|k|u] y; cbn; [reflexivity| |].
             - split.
               + intros (u & c' & l & Hl & Hy). apply log_snoc in Hl as [Hl|[-> Hl]]; [left; eauto 6|].
                 injection Hl as -> -> ->. apply elem_of_list_singleton in Hy as ->. right. split; reflexivity.
               + intros [(u & c' & l & Hl & Hy)|[-> ->]].
                 * exists u, c', l. split; [apply lookup_app_l_Some, Hl|exact Hy].
                 * exists t, (One v d), [x]. split; [|left]. rewrite lookup_app_r, Nat.sub_diag by lia. reflexivity.
             - destruct (decide (u = t)) as [->|Hu].
               + rewrite set_thr_eq, Et. split; [intros (? & ? & ? & H & _); discriminate H|].
                 intros (? & ? & ? & [= <- <- <-] & H). apply elem_of_nil in H. destruct H.
               + rewrite set_thr_ne by exact Hu. reflexivity. }
           assert (Hlt : forall k y, has s (Call k) y -> (k < length (p_log s))%nat).
           { intros k y (? & ? & ? & Hl & _). eapply lookup_lt_Some, Hl. }
           destruct I. constructor.
           ++ intros o y Hy. apply H in Hy. destruct o as [|k|u].
              ** eapply (v_src0 Table). apply Htab. left. exact Hy.
              ** destruct Hy as [Hy|[_ ->]]; [eapply v_src0, Hy|exact Hxs].
              ** eapply v_src0, Hy.
           ++ intros o1 o2 y H1 H2. apply H in H1. apply H in H2.
              assert (K : forall o, (match o with Table => Some y ∈ <[i:=None]> (p_tab s) | Call k => has s (Call k) y | Running u => has s (Running u) y end) -> has s o y).
              { intros [|k|u] Hh; [apply Htab; left; exact Hh|exact Hh|exact Hh]. }
              destruct o1 as [|k1|u1], o2 as [|k2|u2]; try reflexivity.
              ** destruct H2 as [H2|[_ ->]]; [eapply v_one0; [apply (K Table), H1|exact H2]|destruct (Hx' H1)].
              ** eapply v_one0; [apply (K Table), H1|exact H2].
              ** destruct H1 as [H1|[_ ->]]; [eapply v_one0; [exact H1|apply (K Table), H2]|destruct (Hx' H2)].
              ** destruct H1 as [H1|[-> ->]], H2 as [H2|[-> E2]].
                 --- eapply v_one0; eassumption.
                 --- subst y. destruct (Hnotr (Call k1) ltac:(discriminate) H1).
                 --- destruct (Hnotr (Call k2) ltac:(discriminate) H2).
                 --- reflexivity.
              ** destruct H1 as [H1|[_ ->]]; [eapply v_one0; eassumption|destruct (Hnotr (Running u2) ltac:(discriminate) H2)].
              ** eapply v_one0; [exact H1|apply (K Table), H2].
              ** destruct H2 as [H2|[_ ->]]; [eapply v_one0; eassumption|destruct (Hnotr (Running u1) ltac:(discriminate) H1)].
              ** eapply v_one0; eassumption.
           ++ intros y Hy. destruct (decide (y = x)) as [->|Hne].
              { exists (Call (length (p_log s))). apply H. right. split; reflexivity. }
              destruct (v_all0 y Hy) as [[|k|u] Ho].
              ** apply Htab in Ho as [Ho|Ho]; [|congruence]. exists Table. apply H. exact Ho.
              ** exists (Call k). apply H. left. exact Ho.
              ** exists (Running u). apply H. exact Ho.
           ++ intros a b y Ha Hb. eapply v_tab0; eapply Hsub; eassumption.
           ++ intros k u c' l y Hl Hy. apply log_snoc in Hl as [Hl|[-> Hl]]; [eapply v_asked0; eassumption|].
              injection Hl as -> -> ->. apply elem_of_list_singleton in Hy as ->. exact Hask.
           ++ intros u c' j l y. cbn [s' p_thr]. destruct (decide (u = t)) as [->|Hu]; [rewrite set_thr_eq; discriminate|].
              rewrite set_thr_ne by exact Hu. apply v_asked_r0.
           ++ intros k u c' l Hl. apply log_snoc in Hl as [Hl|[-> Hl]]; [eapply v_nd0; eassumption|]. injection Hl as -> -> ->. apply NoDup_singleton.
           ++ intros u c' j l. cbn [s' p_thr]. destruct (decide (u = t)) as [->|Hu]; [rewrite set_thr_eq; discriminate|].
              rewrite set_thr_ne by exact Hu. apply v_nd_r0.
           ++ intros k u v' d' l Hl. apply log_snoc in Hl as [Hl|[-> Hl]]; [eapply v_onedev0; eassumption|]. injection Hl as -> -> -> ->. cbn. lia.
           ++ intros u v' d' j l. cbn [s' p_thr]. destruct (decide (u = t)) as [->|Hu]; [rewrite set_thr_eq; discriminate|].
              rewrite set_thr_ne by exact Hu. apply v_one_r0.
           ++ intros k u c' l y Hl Hc Ha Hh. cbn in Hh. apply log_snoc in Hl as [Hl|[-> Hl]].
              ** eapply (v_left0 _ _ _ _ _ Hl Hc Ha). apply Htab. left. exact Hh.
              ** injection Hl as -> -> ->. destruct Hc as [Hc|[]]. discriminate Hc.
           ++ intros u c' j l a y. cbn [s' p_thr p_tab]. destruct (decide (u = t)) as [->|Hu]; [rewrite set_thr_eq; discriminate|].
              rewrite set_thr_ne by exact Hu. intros Hs Ha Hy. eapply v_left_r0; [exact Hs|exact Ha|apply Hsub, Hy].
        -- (* many: keeps it *)
           set (s' := Pst _ _ _).
           assert (H : forall o y, has s' o y <-> match o with Table => Some y ∈ <[i:=None]> (p_tab s)
                        | Call k => has s (Call k) y | Running u => has s (Running u) y \/ u = t /\ y = x end).
           { intros [|k|u] y; cbn; [reflexivity|reflexivity|].
             destruct (decide (u = t)) as [->|Hu].
             - rewrite set_thr_eq, Et. split.
               + intros (? & ? & ? & [= <- <- <-] & Hy). apply elem_of_app in Hy as [Hy|Hy]; [left; eauto 6|].
                 apply elem_of_list_singleton in Hy as ->. right. split; reflexivity.
               + intros [(? & ? & ? & [= <- <- <-] & Hy)|[_ ->]].
                 * exists (Many v d), (S i), (acc ++ [x]). split; [reflexivity|]. apply elem_of_app. left. exact Hy.
                 * exists (Many v d), (S i), (acc ++ [x]). split; [reflexivity|]. apply elem_of_app. right. left.
             - rewrite set_thr_ne by exact Hu. split; [intros Hy; left; exact Hy|intros [Hy|[E _]]; [exact Hy|congruence]]. }
           destruct I. constructor.
           ++ intros o y Hy. apply H in Hy. destruct o as [|k|u].
              ** eapply (v_src0 Table). apply Htab. left. exact Hy.
              ** eapply v_src0, Hy.
              ** destruct Hy as [Hy|[_ ->]]; [eapply v_src0, Hy|exact Hxs].
           ++ intros o1 o2 y H1 H2. apply H in H1. apply H in H2.
              assert (K : Some y ∈ <[i:=None]> (p_tab s) -> has s Table y) by (intros Hh; apply Htab; left; exact Hh).
              destruct o1 as [|k1|u1], o2 as [|k2|u2]; try reflexivity.
              ** eapply v_one0; [apply K, H1|exact H2].
              ** destruct H2 as [H2|[_ ->]]; [eapply v_one0; [apply K, H1|exact H2]|destruct (Hx' H1)].
              ** eapply v_one0; [exact H1|apply K, H2].
              ** eapply v_one0; eassumption.
              ** destruct H2 as [H2|[_ ->]]; [eapply v_one0; eassumption|destruct (Hnotr (Call k1) ltac:(discriminate) H1)].
              ** destruct H1 as [H1|[_ ->]]; [eapply v_one0; [exact H1|apply K, H2]|destruct (Hx' H2)].
              ** destruct H1 as [H1|[_ ->]]; [eapply v_one0; eassumption|destruct (Hnotr (Call k2) ltac:(discriminate) H2)].
              ** destruct H1 as [H1|[-> ->]], H2 as [H2|[-> E2]].
                 --- eapply v_one0; eassumption.
                 --- subst y. destruct (Hnotr (Running u1) ltac:(discriminate) H1).
                 --- destruct (Hnotr (Running u2) ltac:(discriminate) H2).
                 --- reflexivity.
           ++ intros y Hy. destruct (decide (y = x)) as [->|Hne].
              { exists (Running t). apply H. right. split; reflexivity. }
              destruct (v_all0 y Hy) as [[|k|u] Ho].
              ** apply Htab in Ho as [Ho|Ho]; [|congruence]. exists Table. apply H. exact Ho.
              ** exists (Call k). apply H. exact Ho.
              ** exists (Running u). apply H. left. exact Ho.
           ++ intros a b y Ha Hb. eapply v_tab0; eapply Hsub; eassumption.
           ++ exact v_asked0.
           ++ intros u c' j l y. cbn [s' p_thr]. destruct (decide (u = t)) as [->|Hu].
              ** rewrite set_thr_eq. intros [= <- <- <-] Hy. apply elem_of_app in Hy as [Hy|Hy]; [eapply v_asked_r0; eassumption|].
                 apply elem_of_list_singleton in Hy as ->. exact Hask.
              ** rewrite set_thr_ne by exact Hu. apply v_asked_r0.
           ++ exact v_nd0.
           ++ intros u c' j l. cbn [s' p_thr]. destruct (decide (u = t)) as [->|Hu].
              ** rewrite set_thr_eq. intros [= <- <- <-]. apply NoDup_app. split; [eapply v_nd_r0; exact Et|]. split; [|apply NoDup_singleton].
                 intros y Hy Hy2. apply elem_of_list_singleton in Hy2 as ->. apply (Hnotr (Running t) ltac:(discriminate)). cbn. eauto 6.
              ** rewrite set_thr_ne by exact Hu. apply v_nd_r0.
           ++ exact v_onedev0.
           ++ intros u v' d' j l. cbn [s' p_thr]. destruct (decide (u = t)) as [->|Hu]; [rewrite set_thr_eq; discriminate|].
              rewrite set_thr_ne by exact Hu. apply v_one_r0.
           ++ intros k u c' l y Hl Hc Ha Hh. cbn in Hh. eapply (v_left0 _ _ _ _ _ Hl Hc Ha). apply Htab. left. exact Hh.
           ++ intros u c' j l a y. cbn [s' p_thr p_tab]. destruct (decide (u = t)) as [->|Hu].
              ** rewrite set_thr_eq. intros [= <- <- <-] Ha Hy. destruct (decide (a = i)) as [->|Hai].
                 --- rewrite list_lookup_insert in Hy by (eapply lookup_lt_Some, Ei). discriminate Hy.
                 --- apply Hsub in Hy. eapply (v_left_r0 t); [exact Et| |exact Hy]. lia.
              ** rewrite set_thr_ne by exact Hu. intros Hs Ha Hy. eapply v_left_r0; [exact Hs|exact Ha|apply Hsub, Hy].
      * (* not wanted *)
        assert (Hna : ~ asked cc x) by (rewrite <- wants_asked, Ew; discriminate).
        set (s' := Pst _ _ _).
        assert (H : forall o y, has s' o y <-> has s o y).
        { intros [|k|u] y; cbn; [reflexivity|reflexivity|]. destruct (decide (u = t)) as [->|Hu]; [|rewrite set_thr_ne by exact Hu; reflexivity].
          rewrite set_thr_eq, Et. split; intros (? & ? & ? & [= <- <- <-] & Hy); eauto 6. }
        destruct I. constructor; cbn [s' p_tab p_log p_thr]; try assumption.
        -- intros o y Hy. eapply v_src0, H, Hy.
        -- intros o1 o2 y H1 H2. eapply v_one0; apply H; eassumption.
        -- intros y Hy. destruct (v_all0 y Hy) as [o Ho]. exists o. apply H, Ho.
        -- intros u c' j l y. destruct (decide (u = t)) as [->|Hu]; [rewrite set_thr_eq; intros [= <- <- <-]; eapply v_asked_r0; exact Et|].
           rewrite set_thr_ne by exact Hu. apply v_asked_r0.
        -- intros u c' j l. destruct (decide (u = t)) as [->|Hu]; [rewrite set_thr_eq; intros [= <- <- <-]; eapply v_nd_r0; exact Et|].
           rewrite set_thr_ne by exact Hu. apply v_nd_r0.
        -- intros u v d j l. destruct (decide (u = t)) as [->|Hu]; [rewrite set_thr_eq; intros [= -> <- <-]; eapply v_one_r0; exact Et|].
           rewrite set_thr_ne by exact Hu. apply v_one_r0.
        -- intros u c' j l a y. destruct (decide (u = t)) as [->|Hu].
           ++ rewrite set_thr_eq. intros [= <- <- <-] Ha Hy. destruct (decide (a = i)) as [->|Hai]; [congruence|].
              eapply (v_left_r0 t); [exact Et| |exact Hy]. lia.
           ++ rewrite set_thr_ne by exact Hu. apply v_left_r0.
    + (* taken already *)
      set (s' := Pst _ _ _).
      assert (H : forall o y, has s' o y <-> has s o y).
      { intros [|k|u] y; cbn; [reflexivity|reflexivity|]. destruct (decide (u = t)) as [->|Hu]; [|rewrite set_thr_ne by exact Hu; reflexivity].
        rewrite set_thr_eq, Et. split; intros (? & ? & ? & [= <- <- <-] & Hy); eauto 6. }
      destruct I. constructor; cbn [s' p_tab p_log p_thr]; try assumption.
      -- intros o y Hy. eapply v_src0, H, Hy.
      -- intros o1 o2 y H1 H2. eapply v_one0; apply H; eassumption.
      -- intros y Hy. destruct (v_all0 y Hy) as [o Ho]. exists o. apply H, Ho.
      -- intros u c' j l y. destruct (decide (u = t)) as [->|Hu]; [rewrite set_thr_eq; intros [= <- <- <-]; eapply v_asked_r0; exact Et|].
         rewrite set_thr_ne by exact Hu. apply v_asked_r0.
      -- intros u c' j l. destruct (decide (u = t)) as [->|Hu]; [rewrite set_thr_eq; intros [= <- <- <-]; eapply v_nd_r0; exact Et|].
         rewrite set_thr_ne by exact Hu. apply v_nd_r0.
      -- intros u v d j l. destruct (decide (u = t)) as [->|Hu]; [rewrite set_thr_eq; intros [= -> <- <-]; eapply v_one_r0; exact Et|].
         rewrite set_thr_ne by exact Hu. apply v_one_r0.
      -- intros u c' j l a y. destruct (decide (u = t)) as [->|Hu].
         ++ rewrite set_thr_eq. intros [= <- <- <-] Ha Hy. destruct (decide (a = i)) as [->|Hai]; [congruence|].
            eapply (v_left_r0 t); [exact Et| |exact Hy]. lia.
         ++ rewrite set_thr_ne by exact Hu. apply v_left_r0.
    + (* end of the table *)
      apply lookup_ge_None in Ei.
      (* the devices of thread t become those of the new entry of the log *)
      set (s' := Pst _ _ _). set (n := length (p_log s)).
      assert (Hlog : p_log s' !! n = Some (t, cc, acc)).
      { cbn. rewrite lookup_app_r, Nat.sub_diag by (unfold n; lia). reflexivity. }
      set (f := fun o => match o with Running u => if decide (u = t) then Call n else o | _ => o end).
      assert (Hf : forall o y, has s o y -> has s' (f o) y).
      { intros [|k|u] y Hy; cbn [f]; [exact Hy| |].
        - destruct Hy as (u & c' & l & Hl & Hy). exists u, c', l. split; [apply lookup_app_l_Some, Hl|exact Hy].
        - destruct Hy as (c' & j & l & Hl & Hy). destruct (decide (u = t)) as [->|Hu].
          + rewrite Et in Hl. injection Hl as <- <- <-. exists t, cc, acc. split; [exact Hlog|exact Hy].
          + exists c', j, l. cbn. rewrite set_thr_ne by exact Hu. split; assumption. }
      assert (Hg : forall o y, has s' o y -> exists o', has s o' y /\ f o' = o).
      { intros [|k|u] y Hy.
        - exists Table. split; [exact Hy|reflexivity].
        - destruct Hy as (u & c' & l & Hl & Hy). apply log_snoc in Hl as [Hl|[-> Hl]].
          + exists (Call k). split; [exists u, c', l; split; assumption|reflexivity].
          + injection Hl as -> -> ->. exists (Running t). split; [exists cc, i, acc; split; assumption|]. cbn. destruct (decide (t = t)); [reflexivity|congruence].
        - destruct Hy as (c' & j & l & Hl & Hy). cbn in Hl. destruct (decide (u = t)) as [->|Hu]; [rewrite set_thr_eq in Hl; discriminate Hl|].
          rewrite set_thr_ne in Hl by exact Hu. exists (Running u). split; [exists c', j, l; split; assumption|]. cbn. destruct (decide (u = t)); [congruence|reflexivity]. }
      pose proof I as I0. destruct I. constructor.
      * intros o y Hy. destruct (Hg _ _ Hy) as (o' & Ho & _). eapply v_src0, Ho.
      * intros o1 o2 y H1 H2. destruct (Hg _ _ H1) as (p1 & P1 & <-). destruct (Hg _ _ H2) as (p2 & P2 & <-). f_equal. eapply v_one0; eassumption.
      * intros y Hy. destruct (v_all0 y Hy) as [o Ho]. exists (f o). apply Hf, Ho.
      * exact v_tab0.
      * intros k u c' l y Hl Hy. apply log_snoc in Hl as [Hl|[-> Hl]]; [eapply v_asked0; eassumption|]. injection Hl as -> -> ->. eapply v_asked_r0; eassumption.
      * intros u c' j l y. cbn [s' p_thr]. destruct (decide (u = t)) as [->|Hu]; [rewrite set_thr_eq; discriminate|]. rewrite set_thr_ne by exact Hu. apply v_asked_r0.
      * intros k u c' l Hl. apply log_snoc in Hl as [Hl|[-> Hl]]; [eapply v_nd0; eassumption|]. injection Hl as -> -> ->. eapply v_nd_r0; eassumption.
      * intros u c' j l. cbn [s' p_thr]. destruct (decide (u = t)) as [->|Hu]; [rewrite set_thr_eq; discriminate|]. rewrite set_thr_ne by exact Hu. apply v_nd_r0.
      * intros k u v d l Hl. apply log_snoc in Hl as [Hl|[-> Hl]]; [eapply v_onedev0; eassumption|]. injection Hl as -> Hcc ->.
        rewrite (v_one_r0 t v d i acc); [cbn; lia|]. rewrite Hcc. exact Et.
      * intros u v d j l. cbn [s' p_thr]. destruct (decide (u = t)) as [->|Hu]; [rewrite set_thr_eq; discriminate|]. rewrite set_thr_ne by exact Hu. apply v_one_r0.
      * intros k u c' l y Hl Hc Ha Hh. cbn in Hh. apply log_snoc in Hl as [Hl|[-> Hl]]; [exact (v_left0 _ _ _ _ _ Hl Hc Ha Hh)|].
        injection Hl as -> -> ->. apply elem_of_list_lookup_1 in Hh as [j Hj]. eapply (v_left_r0 t); [exact Et| |exact Hj|exact Ha].
        apply lookup_lt_Some in Hj. lia.
      * intros u c' j l a y. cbn [s' p_thr]. destruct (decide (u = t)) as [->|Hu]; [rewrite set_thr_eq; discriminate|]. rewrite set_thr_ne by exact Hu. apply v_left_r0.
Qed.

Lemma pinv_run devs l : forall s, pinv devs s -> pinv devs (pci_run l s).
Proof. induction l as [|[t c] l IH]; intros s I; cbn [pci_run fold_left]; [exact I|]. apply IH, pinv_step, I. Qed.

(** * One thread alone *)
Lemma due_skip c o l : match o with Some x => wants c x = false | None => True end -> due c (o :: l) = due c l.
Proof.
  intros H. unfold due, devices. destruct o as [x|]; cbn [omap list_omap id]; [|reflexivity].
  rewrite filter_cons_False; [reflexivity|]. rewrite <- wants_asked, H. discriminate.
Qed.

Lemma run_cons t c n s : pci_run (repeat (t, c) (S n)) s = pci_run (repeat (t, c) n) (pci_step t c s).
Proof. reflexivity. Qed.

Lemma scan_alone t c c0 : forall rest pre acc s, p_thr s t = TScan c (length pre) acc -> p_tab s = pre ++ rest ->
  match c with One _ _ => acc = [] | Many _ _ => True end ->
  exists n s', (n <= S (length rest))%nat /\ s' = pci_run (repeat (t, c0) n) s /\ p_thr s' t = TIdle /\ p_log s' = p_log s ++ [(t, c, acc ++ due c rest)].
Proof.
  induction rest as [|o rest IH]; intros pre acc s Et Etab Ha.
  - exists 1%nat, (pci_step t c0 s). split; [lia|]. split; [reflexivity|]. unfold pci_step. rewrite Et, Etab, app_nil_r.
    rewrite (proj2 (lookup_ge_None pre (length pre))) by lia. cbn [p_thr p_log]. rewrite set_thr_eq. split; [reflexivity|].
    replace (due c []) with (@nil dev) by (destruct c; reflexivity). rewrite app_nil_r. reflexivity.
  - assert (El : p_tab s !! length pre = Some o) by (rewrite Etab, lookup_app_r, Nat.sub_diag by lia; reflexivity).
    assert (Hskip : match o with Some x => wants c x = false | None => True end ->
      exists n s', (n <= S (length (o :: rest)))%nat /\ s' = pci_run (repeat (t, c0) n) s /\ p_thr s' t = TIdle /\ p_log s' = p_log s ++ [(t, c, acc ++ due c (o :: rest))]).
    { intros Hw. rewrite due_skip by exact Hw.
      assert (Es : pci_step t c0 s = Pst (p_tab s) (set_thr (p_thr s) t (TScan c (S (length pre)) acc)) (p_log s)).
      { unfold pci_step. rewrite Et, El. destruct o as [x|]; [rewrite Hw; reflexivity|reflexivity]. }
      destruct (IH (pre ++ [o]) acc (pci_step t c0 s)) as (n & s' & Hn & -> & Hi & Hl).
      - rewrite Es. cbn [p_thr]. rewrite set_thr_eq, app_length, Nat.add_1_r. reflexivity.
      - rewrite Es. cbn [p_tab]. rewrite Etab, <- app_assoc. reflexivity.
      - exact Ha.
      - exists (S n), (pci_run (repeat (t, c0) (S n)) s). rewrite run_cons. split; [cbn [length]; lia|]. split; [reflexivity|]. split; [exact Hi|].
        rewrite Hl, Es. reflexivity. }
    destruct o as [x|]; [|apply Hskip; exact Logic.I]. destruct (wants c x) eqn:Ew; [|apply Hskip; reflexivity]. clear Hskip.
    assert (Hask : asked c x) by (apply wants_asked, Ew).
    destruct c as [v d|v d].
    + subst acc. exists 1%nat, (pci_step t c0 s). split; [lia|]. split; [reflexivity|]. unfold pci_step. rewrite Et, El, Ew. cbn [p_thr p_log].
      rewrite set_thr_eq. split; [reflexivity|]. unfold due, devices. cbn [omap list_omap id]. rewrite filter_cons_True by exact Hask. reflexivity.
    + assert (Es : pci_step t c0 s = Pst (pre ++ None :: rest) (set_thr (p_thr s) t (TScan (Many v d) (S (length pre)) (acc ++ [x]))) (p_log s)).
      { unfold pci_step. rewrite Et, El, Ew, Etab. f_equal. rewrite <- (Nat.add_0_r (length pre)), insert_app_r. reflexivity. }
      destruct (IH (pre ++ [None]) (acc ++ [x]) (pci_step t c0 s)) as (n & s' & Hn & -> & Hi & Hl).
      * rewrite Es. cbn [p_thr]. rewrite set_thr_eq, app_length, Nat.add_1_r. reflexivity.
      * rewrite Es. cbn [p_tab]. rewrite <- app_assoc. reflexivity.
      * exact Logic.I.
      * exists (S n), (pci_run (repeat (t, c0) (S n)) s). rewrite run_cons. split; [cbn [length]; lia|]. split; [reflexivity|]. split; [exact Hi|].
        rewrite Hl, Es. cbn [p_log]. rewrite <- app_assoc. unfold due, devices. cbn [omap list_omap id]. rewrite filter_cons_True by exact Hask. reflexivity.
Qed.

Lemma claim_alone t c s : p_thr s t = TIdle ->
  exists n, (n <= length (p_tab s) + 2)%nat /\ p_thr (pci_run (repeat (t, c) n) s) t = TIdle /\
            p_log (pci_run (repeat (t, c) n) s) = p_log s ++ [(t, c, due c (p_tab s))].
Proof.
  intros Ht.
  assert (Es : pci_step t c s = Pst (p_tab s) (set_thr (p_thr s) t (TScan c 0 [])) (p_log s)) by (unfold pci_step; rewrite Ht; reflexivity).
  destruct (scan_alone t c c (p_tab s) [] [] (pci_step t c s)) as (n & s' & Hn & -> & Hi & Hl).
  - rewrite Es. cbn [p_thr length]. apply set_thr_eq.
  - rewrite Es. reflexivity.
  - destruct c; [reflexivity|exact Logic.I].
  - exists (S n). rewrite run_cons. split; [lia|]. split; [exact Hi|]. rewrite Hl, Es. reflexivity.
Qed.

(** * Every call returns *)
Lemma ret_mono u c t s : (returned t s <= returned t (pci_step u c s))%nat.
Proof.
  assert (K : forall e, (length (filter (fun e => e.1.1 = t) (p_log s)) <= length (filter (fun e : nat * call * list dev => e.1.1 = t) (p_log s ++ [e])))%nat).
  { intros e. rewrite filter_app, app_length. lia. }
  unfold returned, pci_step. destruct (p_thr s u) as [|cc i acc]; cbn [p_log]; [lia|].
  destruct (p_tab s !! i) as [[x|]|]; cbn [p_log]; [|lia|apply K]. destruct (wants cc x); [|cbn [p_log]; lia]. destruct cc; cbn [p_log]; [apply K|lia].
Qed.
Lemma ret_run t l : forall s, (returned t s <= returned t (pci_run l s))%nat.
Proof. induction l as [|[u c] l IH]; intros s; cbn [pci_run fold_left]; [lia|]. etransitivity; [apply (ret_mono u c)|apply IH]. Qed.

Lemma tab_len t c s : length (p_tab (pci_step t c s)) = length (p_tab s).
Proof.
  unfold pci_step. destruct (p_thr s t) as [|cc i acc]; [reflexivity|]. destruct (p_tab s !! i) as [[x|]|]; try reflexivity.
  destruct (wants cc x); [|reflexivity]. destruct cc; cbn [p_tab]; apply insert_length.
Qed.

Lemma thr_other u c t s : u <> t -> p_thr (pci_step u c s) t = p_thr s t.
Proof.
  intros Hu. assert (Hu' : t <> u) by congruence. unfold pci_step. destruct (p_thr s u) as [|cc i acc]; cbn [p_thr]; [apply set_thr_ne, Hu'|].
  destruct (p_tab s !! i) as [[x|]|]; cbn [p_thr]; try (apply set_thr_ne, Hu').
  destruct (wants cc x); [|apply set_thr_ne, Hu']. destruct cc; apply set_thr_ne, Hu'.
Qed.

Definition rounds (len : nat) (x : thr) : nat := match x with TIdle => len + 2 | TScan _ i _ => len - i + 1 end.

Lemma own_step t c s :
  (returned t s < returned t (pci_step t c s))%nat \/
  (rounds (length (p_tab s)) (p_thr (pci_step t c s) t) < rounds (length (p_tab s)) (p_thr s t))%nat.
Proof.
  assert (K : forall c' l, (returned t s < length (filter (fun e : nat * call * list dev => e.1.1 = t) (p_log s ++ [(t, c', l)])))%nat).
  { intros c' l. unfold returned. rewrite filter_app, app_length. rewrite filter_cons_True by reflexivity. cbn [length]. lia. }
  unfold pci_step. destruct (p_thr s t) as [|cc i acc] eqn:Et.
  - right. cbn [p_thr]. rewrite set_thr_eq. cbn [rounds]. lia.
  - destruct (p_tab s !! i) as [o|] eqn:Ei; [|left; apply K]. apply lookup_lt_Some in Ei.
    destruct o as [x|]; [|right; cbn [p_thr]; rewrite set_thr_eq; cbn [rounds]; lia].
    destruct (wants cc x); [|right; cbn [p_thr]; rewrite set_thr_eq; cbn [rounds]; lia].
    destruct cc; [left; apply K|right; cbn [p_thr]; rewrite set_thr_eq; cbn [rounds]; lia].
Qed.

Lemma returns t l : forall s, (rounds (length (p_tab s)) (p_thr s t) <= steps_of t l)%nat -> (returned t s < returned t (pci_run l s))%nat.
Proof.
  induction l as [|[u c] l IH]; intros s H.
  - unfold steps_of in H. cbn in H. destruct (p_thr s t); cbn [rounds] in H; lia.
  - cbn [pci_run fold_left]. unfold steps_of in H. destruct (decide (u = t)) as [->|Hu].
    + rewrite filter_cons_True in H by reflexivity. cbn [length] in H.
      destruct (own_step t c s) as [Hr|Hr]; [eapply Nat.lt_le_trans; [exact Hr|apply ret_run]|].
      eapply Nat.le_lt_trans; [apply (ret_mono t c)|]. apply IH. cbn [fst snd]. rewrite tab_len. unfold steps_of. lia.
    + rewrite filter_cons_False in H by exact Hu. eapply Nat.le_lt_trans; [apply (ret_mono u c)|]. apply IH. cbn [fst snd].
      rewrite tab_len, thr_other by exact Hu. exact H.
Qed.
