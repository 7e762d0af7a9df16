From Verif Require Import Base.
From Verif Require Import ConModel ConSpec.
Local Open Scope N_scope.

Lemma run_app s l1 l2 : run s (l1 ++ l2) = match run s l1 with Some s' => run s' l2 | None => None end.
Proof. revert s. induction l1 as [|e l1 IH]; intros s; [done|]. cbn [run app]. destruct (step s e); [apply IH|done]. Qed.
Lemma run_snoc s l e : run s (l ++ [e]) = match run s l with Some s' => step s' e | None => None end.
Proof. rewrite run_app. destruct (run s l) as [s'|]; [cbn; destruct (step s' e); done|done]. Qed.

(** ** Projections *)
Lemma said_app c a b : said c (a ++ b) = said c a ++ said c b.
Proof. induction a as [|e a IH]; [done|]. destruct e; cbn [said app]; rewrite IH; try done. by rewrite <-app_assoc. Qed.
Lemma shown_app c a b : shown c (a ++ b) = shown c a ++ shown c b.
Proof. apply flat_map_app. Qed.
Lemma users_app a b : users (a ++ b) = users a ++ users b.
Proof. apply flat_map_app. Qed.
Lemma copied_app c a b : copied c (a ++ b) = copied c a ++ copied c b.
Proof. apply flat_map_app. Qed.
Lemma shown_out_same c out : shown c (map (pair (Some c)) out) = out.
Proof. induction out as [|b out IH]; [done|]. cbn. rewrite Nat.eqb_refl. cbn. f_equal. exact IH. Qed.
Lemma shown_out_other c d out : d <> c -> shown c (map (pair (Some d)) out) = [].
Proof. intros H. induction out as [|b out IH]; [done|]. cbn. destruct (Nat.eqb_spec d c); [done|]. exact IH. Qed.
Lemma shown_kern c out : shown c (map (pair None) out) = [].
Proof. induction out as [|b out IH]; [done|]. exact IH. Qed.
Lemma users_out d out : users (map (pair (Some d)) out) = map (pair d) out.
Proof. induction out as [|b out IH]; [done|]. cbn. f_equal. exact IH. Qed.
Lemma users_kern out : users (map (pair None) out) = [].
Proof. induction out as [|b out IH]; [done|]. exact IH. Qed.

(** The bytes of core [c] among those of all programs. *)
Definition byc (c : nat) (u : list (nat * N)) : list N := flat_map (fun x => if Nat.eqb x.1 c then [x.2] else []) u.
Lemma byc_app c a b : byc c (a ++ b) = byc c a ++ byc c b.
Proof. apply flat_map_app. Qed.
Lemma byc_same c out : byc c (map (pair c) out) = out.
Proof. induction out as [|b out IH]; [done|]. cbn. rewrite Nat.eqb_refl. cbn. f_equal. exact IH. Qed.

(** ** The first newline *)
Lemma cut_some t l h : cut t = Some (l, h) -> exists a, l = a ++ [NL] /\ NL ∉ a /\ t = a ++ NL :: h.
Proof.
  revert l h. induction t as [|b t IH]; intros l h H; [done|]. cbn [cut] in H.
  destruct (N.eqb_spec b NL) as [-> | Hb].
  - injection H as <- <-. exists []. split; [done|]. split; [apply not_elem_of_nil|done].
  - destruct (cut t) as [[l' h']|]; [|done]. injection H as <- <-.
    destruct (IH l' h' eq_refl) as (a & -> & Ha & ->). exists (b :: a). split; [done|]. split; [|done].
    rewrite not_elem_of_cons. split; [congruence|done].
Qed.
Lemma cut_none t : cut t = None -> NL ∉ t.
Proof.
  induction t as [|b t IH]; intros H; [apply not_elem_of_nil|]. cbn [cut] in H.
  destruct (N.eqb_spec b NL) as [-> | Hb]; [done|]. destruct (cut t) as [[l' h']|]; [done|].
  rewrite not_elem_of_cons. split; [congruence|by apply IH].
Qed.
Lemma cut_first a b : NL ∉ a -> cut (a ++ NL :: b) = Some (a ++ [NL], b).
Proof.
  induction a as [|x a IH]; intros H; [done|]. rewrite not_elem_of_cons in H. destruct H as [H1 H2].
  cbn [cut app]. destruct (N.eqb_spec x NL) as [-> | ]; [done|]. by rewrite IH.
Qed.

Lemma accept_ok client base text : printable base text -> accept client base text = Ok true.
Proof.
  intros (U & L & B1 & B2). unfold accept, SysModel.us_for_current, SysModel.uvaddr_try_from, SysModel.us_new.
  change SysModel.kernel_base with (2 ^ 46). change SysModel.page_sz with 4096. change SysModel.i32_max with 2147483647.
  change (2 ^ 31) with 2147483648 in L. change (2 ^ 46) with 70368744177664 in *. change (2 ^ 64) with 18446744073709551616.
  change (true && negb (0 <? SysModel.max_processes)) with false. cbv iota.
  rewrite (proj2 (N.ltb_lt base _)) by lia. cbv iota beta.
  rewrite (proj2 (N.ltb_ge _ _)) by lia. cbv iota.
  rewrite (proj2 (N.ltb_lt _ 18446744073709551616)) by lia. rewrite (proj2 (N.leb_le _ _)) by lia.
  rewrite (proj2 (N.ltb_lt _ 70368744177664)) by lia. cbn [andb]. by rewrite U.
Qed.

(** ** The core invariant *)
Definition pend (k : core) : list N :=
  match k_ph k with
  | PIdle | PRpc _ => k_buf k
  | PWait low hi => k_buf k ++ low ++ default [] hi
  | PLow out hi _ => out ++ default [] hi
  | PHigh out _ => out ++ k_buf k
  end.
Definition busy (k : core) : bool := match k_ph k with PLow _ _ _ | PHigh _ _ => true | _ => false end.

Record Inv (l : list ev) (s : st) : Prop := mkInv {
  i_say : forall c k, s_cores s !! c = Some k -> said c l = shown c (s_line s) ++ pend k;
  i_len : forall c k, s_cores s !! c = Some k -> N.of_nat (length (k_buf k)) <= s_cap s;
  i_lock : forall c, s_lock s = Some c <-> exists k, s_cores s !! c = Some k /\ busy k = true }.

Lemma finish_pend client ret b : pend (mkCore b (finish client ret)) = b.
Proof. unfold finish. destruct client; [destruct ret|]; done. Qed.
Lemma finish_busy client ret b : busy (mkCore b (finish client ret)) = false.
Proof. unfold finish. destruct client; [destruct ret|]; done. Qed.

(** One step of a core: what changes. *)
Lemma core_step_spec s c k s' : s_cores s !! c = Some k -> core_step s c k = Some s' ->
  exists k' lock out, s_cores s' = <[c := k']> (s_cores s) /\ s_lock s' = lock /\
    s_line s' = s_line s ++ map (pair (Some c)) out /\ s_cap s' = s_cap s /\ s_client s' = s_client s /\ s_off s' = s_off s /\
    (forall d, d <> c -> copied d (s_remote s') = copied d (s_remote s)) /\
    pend k = out ++ pend k' /\
    (N.of_nat (length (k_buf k)) <= s_cap s -> N.of_nat (length (k_buf k')) <= s_cap s) /\
    ((busy k = true /\ ((busy k' = true /\ lock = s_lock s) \/ (busy k' = false /\ lock = None))) \/
     (busy k = false /\ busy k' = true /\ s_lock s = None /\ lock = Some c) \/
     (busy k = false /\ busy k' = false /\ lock = s_lock s)) /\
    (out <> [] -> busy k = true).
Proof.
  intros Hk H. unfold core_step in H. destruct k as [b ph]. cbn [k_ph k_buf] in *.
  destruct ph as [|low hi|[|x out] [hi|] ret|[|x out] ret|ret]; try done.
  - destruct (s_lock s) eqn:L; [done|]. injection H as <-.
    eexists _, _, []. do 7 (split; [first [reflexivity | done]|]). split; [cbn; by rewrite <-app_assoc|].
    split; [done|]. split; [right; left; done|done].
  - destruct (N.leb_spec (N.of_nat (length hi)) (s_cap s - 0)) as [Le|Le]; injection H as <-; eexists _, _, [];
      do 7 (split; [first [reflexivity | done]|]).
    + split; [rewrite finish_pend; done|]. split; [cbn; lia|]. split; [left; split; [done|right; split; [apply finish_busy|done]]|done].
    + split; [cbn; by rewrite app_nil_r|]. split; [cbn; lia|]. split; [left; split; [done|left; done]|done].
  - injection H as <-. eexists _, _, []. do 7 (split; [first [reflexivity | done]|]).
    split; [rewrite finish_pend; done|]. split; [cbn; lia|]. split; [left; split; [done|right; split; [apply finish_busy|done]]|done].
  - injection H as <-. eexists _, _, [x]. do 7 (split; [first [reflexivity | done]|]).
    split; [done|]. split; [done|]. split; [left; split; [done|left; done]|done].
  - injection H as <-. eexists _, _, [x]. do 7 (split; [first [reflexivity | done]|]).
    split; [done|]. split; [done|]. split; [left; split; [done|left; done]|done].
  - injection H as <-. eexists _, _, []. do 7 (split; [first [reflexivity | done]|]).
    split; [rewrite finish_pend; done|]. split; [done|]. split; [left; split; [done|right; split; [apply finish_busy|done]]|done].
  - injection H as <-. eexists _, _, [x]. do 7 (split; [first [reflexivity | done]|]).
    split; [done|]. split; [done|]. split; [left; split; [done|left; done]|done].
  - injection H as <-. eexists _, _, []. do 6 (split; [first [reflexivity | done]|]).
    split. { intros d Hd. change (copied d (s_remote s ++ [(c, ret)]) = copied d (s_remote s)). rewrite copied_app. cbn. destruct (Nat.eqb_spec c d); [done|]. by rewrite app_nil_r. }
    split; [done|]. split; [done|]. split; [right; right; done|done].
Qed.

Lemma begin_spec cap k text : k_ph k = PIdle -> N.of_nat (length (k_buf k)) <= cap ->
  pend (begin cap k text) = pend k ++ text /\ busy (begin cap k text) = false /\
  N.of_nat (length (k_buf (begin cap k text))) <= cap.
Proof.
  intros Hp Hl. destruct k as [b ph]. cbn [k_ph k_buf] in *. subst ph. unfold begin. cbn [k_buf].
  destruct (cut text) as [[low high]|] eqn:C.
  - destruct (cut_some _ _ _ C) as (a & -> & _ & ->). cbn. by rewrite <-app_assoc.
  - destruct (N.ltb_spec (cap - N.of_nat (length b)) (N.of_nat (length text))) as [L|L].
    + cbn. rewrite app_nil_r. done.
    + cbn. rewrite app_length. split; [done|]. split; [done|]. lia.
Qed.

(** What an event does: nothing to the cores, a print, or a step of a core. *)
Inductive kind (s : st) (e : ev) (s' : st) : Prop :=
| KPrint c base text k : e = EPrint c base text -> s_cores s !! c = Some k -> k_ph k = PIdle ->
    accept (s_client s) base text = Ok true -> s' = upd s c (begin (s_cap s) k text) (s_lock s) [] -> kind s e s'
| KDrop c base text : e = EPrint c base text -> accept (s_client s) base text <> Ok true -> s' = s -> kind s e s'
| KStep c k : e = EStep c -> s_cores s !! c = Some k -> core_step s c k = Some s' -> kind s e s'
| KRest text : (forall c base t, e <> EPrint c base t) -> s_cores s' = s_cores s -> s_lock s' = s_lock s ->
    s_line s' = s_line s ++ map (pair None) text -> s_cap s' = s_cap s -> s_client s' = s_client s ->
    s_remote s' = s_remote s -> kind s e s'.

Lemma step_kind s e s' : step s e = Some s' -> kind s e s'.
Proof.
  unfold step. destruct (s_off s); [done|]. destruct e as [c base text|c|text|].
  - destruct (s_cores s !! c) as [k|] eqn:Hk; [|done]. destruct (k_ph k) eqn:Hp; try done.
    destruct (accept (s_client s) base text) as [[|]|e|] eqn:A; intros [= <-].
    + by eapply KPrint.
    + eapply KDrop; [done|congruence|done].
    + eapply KDrop; [done|congruence|done].
    + eapply KDrop; [done|congruence|done].
  - destruct (s_cores s !! c) as [k|] eqn:Hk; [|done]. intros H. by eapply KStep.
  - intros [= <-]. by eapply KRest.
  - intros [= <-]. eapply (KRest _ _ _ []); try done. cbn. by rewrite app_nil_r.
Qed.

Lemma said_one_print c d base text : said c [EPrint d base text] = if Nat.eqb d c then text else [].
Proof. cbn. apply app_nil_r. Qed.
Lemma said_one_other c e : (forall d base t, e <> EPrint d base t) -> said c [e] = [].
Proof. destruct e; try done. intros H. exfalso. by eapply H. Qed.

Lemma inv_init client cap n : Inv [] (init client cap n).
Proof.
  split.
  - intros c k H. cbn in H. apply lookup_replicate in H as [-> _]. done.
  - intros c k H. cbn in H. apply lookup_replicate in H as [-> _]. cbn. lia.
  - intros c. split; [done|]. intros (k & H & B). cbn in H. apply lookup_replicate in H as [-> _]. done.
Qed.

Lemma ins_lookup {A} (l : list A) c d (x y : A) : <[c := x]> l !! d = Some y ->
  (d = c /\ y = x /\ is_Some (l !! c)) \/ (d <> c /\ l !! d = Some y).
Proof. rewrite list_lookup_insert_Some. intros [(-> & -> & L)|[N H]]; [left; split; [done|split; [done|by apply lookup_lt_is_Some]]|right; split; [congruence|done]]. Qed.
Lemma ins_same {A} (l : list A) c (x y : A) : l !! c = Some y -> <[c := x]> l !! c = Some x.
Proof. intros H. apply list_lookup_insert. by eapply lookup_lt_Some. Qed.

Lemma inv_step l s e s' : (forall c base t, e = EPrint c base t -> accept (s_client s) base t = Ok true) ->
  Inv l s -> step s e = Some s' -> Inv (l ++ [e]) s'.
Proof.
  intros Acc [Say Len Lock] H. apply step_kind in H.
  destruct H as [c base text k -> Hk Hp A ->|c base text -> A _|c k -> Hk H|text Ne HC HL Hl Hcap Hcl Hr].
  - destruct (begin_spec (s_cap s) k text Hp (Len _ _ Hk)) as (B1 & B2 & B3). split.
    + intros d k' H. cbn in H. rewrite said_app, said_one_print. cbn [s_line upd]. rewrite shown_app. cbn [map shown flat_map].
      rewrite app_nil_r. destruct (ins_lookup _ _ _ _ _ H) as [(-> & -> & _)|[N H']].
      * rewrite Nat.eqb_refl, B1, (Say _ _ Hk). by rewrite app_assoc.
      * destruct (Nat.eqb_spec c d); [done|]. rewrite app_nil_r. by apply Say.
    + intros d k' H. cbn in H. destruct (ins_lookup _ _ _ _ _ H) as [(-> & -> & _)|[N H']]; [done|]. cbn. by eapply Len.
    + intros d. cbn. rewrite Lock. split; intros (k' & H & B).
      * destruct (decide (d = c)) as [-> |N].
        -- exfalso. rewrite Hk in H. injection H as <-. unfold busy in B. by rewrite Hp in B.
        -- exists k'. split; [|done]. by rewrite list_lookup_insert_ne by congruence.
      * destruct (ins_lookup _ _ _ _ _ H) as [(-> & -> & _)|[N H']]; [congruence|]. by exists k'.
  - exfalso. by eapply A, Acc.
  - destruct (core_step_spec _ _ _ _ Hk H) as (k' & lock & out & HC & HL & Hl & Hcap & _ & _ & _ & P & Lb & B & O). split.
    + intros d kd Hd. rewrite HC in Hd. rewrite said_app, said_one_other, app_nil_r by done. rewrite Hl, shown_app.
      destruct (ins_lookup _ _ _ _ _ Hd) as [(-> & -> & _)|[N H']].
      * rewrite shown_out_same, <-app_assoc, <-P. by apply Say.
      * rewrite shown_out_other by congruence. rewrite app_nil_r. by apply Say.
    + intros d kd Hd. rewrite HC in Hd. rewrite Hcap. destruct (ins_lookup _ _ _ _ _ Hd) as [(-> & -> & _)|[N H']].
      * apply Lb. by eapply Len.
      * by eapply Len.
    + intros d. rewrite HL, HC. destruct (decide (d = c)) as [-> |N].
      * split.
        -- intros E. exists k'. split; [by eapply ins_same|]. destruct B as [[B [[B' E']|[B' E']]]|[(B & B' & E' & E'')|(B & B' & E')]]; try congruence.
           exfalso. subst lock. rewrite E' in E. apply Lock in E as (k'' & H'' & B''). congruence.
        -- intros (kd & Hd & Bd). rewrite (ins_same _ _ _ _ Hk) in Hd. injection Hd as <-.
           destruct B as [[B [[B' E']|[B' E']]]|[(B & B' & E' & E'')|(B & B' & E')]]; try congruence.
           rewrite E'. apply Lock. by exists k.
      * assert (Hiff : (exists k0, <[c:=k']> (s_cores s) !! d = Some k0 /\ busy k0 = true) <-> s_lock s = Some d).
        { rewrite Lock. split; intros (k0 & H0 & B0); exists k0; (split; [|done]).
          - by rewrite list_lookup_insert_ne in H0 by congruence.
          - by rewrite list_lookup_insert_ne by congruence. }
        rewrite Hiff. destruct B as [[B [[B' E']|[B' E']]]|[(B & B' & E' & E'')|(B & B' & E')]]; rewrite E' || rewrite E''; try done.
        -- split; [done|]. intros E. assert (s_lock s = Some c) by (apply Lock; by exists k). congruence.
        -- rewrite E''. split; congruence.
  - split.
    + intros c k H. rewrite HC in H. rewrite said_app, said_one_other, app_nil_r by done. rewrite Hl, shown_app, shown_kern, app_nil_r. by apply Say.
    + intros c k H. rewrite HC in H. rewrite Hcap. by eapply Len.
    + intros c. rewrite HL, HC. apply Lock.
Qed.

Lemma client_step s e s' : step s e = Some s' -> s_client s' = s_client s /\ s_cap s' = s_cap s.
Proof.
  intros H. apply step_kind in H.
  destruct H as [c base text k -> Hk Hp A ->|c base text -> A ->|c k -> Hk H|text Ne HC HL Hl Hcap Hcl Hr]; try done.
  destruct (core_step_spec _ _ _ _ Hk H) as (k' & lock & out & HC & HL & Hl & Hcap & Hcl & _). done.
Qed.

(** ** Runs *)
Lemma run_ind' client cap n (P : list ev -> st -> Prop) : P [] (init client cap n) ->
  (forall l s e s', P l s -> run (init client cap n) l = Some s -> s_client s = client -> s_cap s = cap -> step s e = Some s' -> P (l ++ [e]) s') ->
  forall l s, run (init client cap n) l = Some s -> P l s /\ s_client s = client /\ s_cap s = cap.
Proof.
  intros P0 PS l. induction l as [|e l IH] using rev_ind; intros s H.
  - injection H as <-. done.
  - rewrite run_snoc in H. destruct (run (init client cap n) l) as [s0|] eqn:E; [|done].
    destruct (IH s0 eq_refl) as (Hp & H1 & H2). destruct (client_step _ _ _ H) as [H3 H4]. split; [|split; congruence]. by eapply PS.
Qed.

Lemma inv_run client cap n l s : all_printable l -> run (init client cap n) l = Some s ->
  Inv l s /\ s_client s = client /\ s_cap s = cap.
Proof.
  intros Pr H. revert Pr. destruct (run_ind' client cap n (fun l s => all_printable l -> Inv l s)) with (l := l) (s := s) as (A & B & C); try done.
  - intros _. apply inv_init.
  - intros l0 s0 e s' IH R E1 E2 St Pr. eapply inv_step; [|apply IH|done].
    + intros c base t ->. apply accept_ok. apply (Pr c). apply elem_of_app. right. apply elem_of_list_singleton. done.
    + intros c base t Hin. apply (Pr c). apply elem_of_app. by left.
  - intros Pr. split; [by apply A|done].
Qed.

(** ** What is shown when a call returns *)
Definition Q (low high : list N) (k : core) : Prop :=
  match k_ph k with
  | PIdle | PRpc _ => k_buf k = high \/ k_buf k = []
  | PWait lo hi => lo = low /\ hi = Some high
  | PLow _ hi _ => hi = Some high
  | PHigh _ _ => k_buf k = []
  end.

Lemma finish_Q client ret b low high : b = high \/ b = [] -> Q low high (mkCore b (finish client ret)).
Proof. intros H. unfold finish. destruct client; [destruct ret|]; done. Qed.

Lemma Q_core_step s c k s' low high : core_step s c k = Some s' -> s_cores s !! c = Some k -> Q low high k ->
  exists k', s_cores s' !! c = Some k' /\ Q low high k'.
Proof.
  intros H Hk HQ. unfold core_step in H. destruct k as [b ph]. unfold Q in HQ. cbn [k_ph k_buf] in *.
  destruct ph as [|lo hi|[|x out] [hi|] ret|[|x out] ret|ret]; try done.
  - destruct (s_lock s); [done|]. injection H as <-. destruct HQ as [-> ->]. eexists. split; [by eapply ins_same|]. done.
  - injection HQ as ->. destruct (N.of_nat (length high) <=? s_cap s - 0); injection H as <-; eexists; (split; [by eapply ins_same|]).
    + apply finish_Q. by left.
    + done.
  - injection H as <-. injection HQ as ->. eexists. split; [by eapply ins_same|]. done.
  - injection H as <-. eexists. split; [by eapply ins_same|]. apply finish_Q. by right.
  - injection H as <-. eexists. split; [by eapply ins_same|]. done.
  - injection H as <-. eexists. split; [by eapply ins_same|]. done.
Qed.

Lemma Q_run c low high l s s' : (forall base text, EPrint c base text ∉ l) -> run s l = Some s' ->
  (exists k, s_cores s !! c = Some k /\ Q low high k) -> exists k, s_cores s' !! c = Some k /\ Q low high k.
Proof.
  revert s. induction l as [|e l IH]; intros s Np R HQ.
  - injection R as <-. done.
  - cbn [run] in R. destruct (step s e) as [s1|] eqn:St; [|done]. apply (IH s1); [|done|].
    { intros base text Hin. apply (Np base text). apply elem_of_cons. by right. }
    destruct HQ as (k & Hk & HQ). apply step_kind in St.
    destruct St as [d base text kd -> Hd Hp A ->|d base text -> A ->|d kd -> Hd H|text Ne HC HL Hl Hcap Hcl Hr].
    + destruct (decide (d = c)) as [-> |N].
      * exfalso. apply (Np base text). apply elem_of_cons. by left.
      * exists k. split; [|done]. cbn. by rewrite list_lookup_insert_ne by congruence.
    + by exists k.
    + destruct (decide (d = c)) as [-> |N].
      * rewrite Hk in Hd. injection Hd as <-. by eapply Q_core_step.
      * destruct (core_step_spec _ _ _ _ Hd H) as (k' & lock & out & HC & _). exists k. split; [|done].
        rewrite HC. by rewrite list_lookup_insert_ne by congruence.
    + exists k. by rewrite HC.
Qed.

Lemma shown_after client cap n l1 c base a b l2 s :
  all_printable (l1 ++ EPrint c base (a ++ NL :: b) :: l2) -> NL ∉ a -> (forall base' text, EPrint c base' text ∉ l2) ->
  run (init client cap n) (l1 ++ EPrint c base (a ++ NL :: b) :: l2) = Some s -> returned c s ->
  exists r, (r = b \/ r = []) /\ said c (l1 ++ EPrint c base (a ++ NL :: b) :: l2) = shown c (s_line s) ++ r.
Proof.
  intros Pr Na Np R (k & Hk & Hp). destruct (inv_run _ _ _ _ _ Pr R) as ([Say _ _] & _ & _).
  rewrite run_app in R. destruct (run (init client cap n) l1) as [s1|] eqn:R1; [|done].
  cbn [run] in R. destruct (step s1 (EPrint c base (a ++ NL :: b))) as [s2|] eqn:St; [|done].
  assert (HQ : exists k, s_cores s2 !! c = Some k /\ Q (a ++ [NL]) b k).
  { apply step_kind in St.
    destruct St as [d base' text kd E Hd Hp' A ->|d base' text E A _|d kd E Hd H|text Ne HC HL Hl Hcap Hcl Hr]; try done.
    - injection E as <- <- <-. eexists. split; [cbn; by eapply ins_same|]. unfold begin. rewrite cut_first by done. done.
    - injection E as <- <- <-. exfalso. apply A. apply accept_ok. apply (Pr c). apply elem_of_app. right. apply elem_of_cons. by left.
    - exfalso. by eapply Ne. }
  destruct (Q_run _ _ _ _ _ _ Np R HQ) as (k' & Hk' & Q'). rewrite Hk in Hk'. injection Hk' as <-.
  unfold Q in Q'. rewrite Hp in Q'. exists (k_buf k). split; [done|]. rewrite (Say _ _ Hk). unfold pend. by rewrite Hp.
Qed.

(** ** Lines are not mixed *)
Lemma said_in c l base text : EPrint c base text ∈ l -> exists x y, said c l = x ++ text ++ y.
Proof.
  intros H. apply elem_of_list_split in H as (l1 & l2 & ->). exists (said c l1), (said c l2).
  rewrite said_app. cbn [said]. by rewrite Nat.eqb_refl.
Qed.
Lemma shown_byc c line : shown c line = byc c (users line).
Proof.
  induction line as [|[[d|] b] line IH]; [done| |done].
  change (shown c ((Some d, b) :: line)) with ((if Nat.eqb d c then [b] else []) ++ shown c line).
  change (byc c (users ((Some d, b) :: line))) with ((if Nat.eqb d c then [b] else []) ++ byc c (users line)). by rewrite IH.
Qed.

(** The bytes of core [c] end with a newline. *)
Definition closed (c : nat) (u : list (nat * N)) : Prop := byc c u = [] \/ exists x, byc c u = x ++ [NL].

Definition L (c : nat) (cap : N) (u : list (nat * N)) (k : core) : Prop :=
  NL ∉ k_buf k /\
  match k_ph k with
  | PIdle | PRpc _ => closed c u
  | PWait low hi => closed c u /\ exists a h, low = a ++ [NL] /\ NL ∉ a /\ hi = Some h /\ NL ∉ h /\ N.of_nat (length h) <= cap
  | PLow out hi _ => exists u0 e x h, u = u0 ++ map (pair c) e /\ closed c u0 /\ e ++ out = x ++ [NL] /\ NL ∉ x /\
      hi = Some h /\ NL ∉ h /\ N.of_nat (length h) <= cap
  | PHigh _ _ => False
  end.

Lemma byc_cons_in c u x : (c, x) ∈ u -> x ∈ byc c u.
Proof.
  intros H. apply elem_of_list_split in H as (u1 & u2 & ->). rewrite byc_app. apply elem_of_app. right.
  cbn. rewrite Nat.eqb_refl. apply elem_of_cons. by left.
Qed.
Lemma byc_in c u x : x ∈ byc c u -> (c, x) ∈ u.
Proof.
  induction u as [|[d y] u IH]; [intros H; by apply elem_of_nil in H|]. unfold byc. cbn [flat_map fst snd].
  destruct (Nat.eqb_spec d c) as [-> |].
  - cbn [app]. rewrite !elem_of_cons. intros [-> |H]; [by left|right; by apply IH].
  - cbn [app]. intros H. apply elem_of_cons. right. by apply IH.
Qed.

(** A newline of [c] is behind the last byte of [c] before the end of a closed list. *)
Lemma closed_split c a b1 m : closed c (a ++ (c, b1) :: m) -> (c, NL) ∈ (c, b1) :: m.
Proof.
  intros [H|(x & H)].
  - exfalso. rewrite byc_app in H. cbn in H. rewrite Nat.eqb_refl in H. destruct (byc c a); done.
  - rewrite byc_app in H. apply byc_in.
    assert (E : exists y, byc c ((c, b1) :: m) = y ++ [NL]).
    { assert (Ne : byc c ((c, b1) :: m) <> []) by (cbn; rewrite Nat.eqb_refl; done).
      destruct (exists_last Ne) as (w & z & Ez). rewrite Ez in H |- *.
      rewrite app_assoc in H. apply app_inj_tail in H as [_ ->]. by exists w. }
    destruct E as (y & ->). apply elem_of_app. right. by apply elem_of_list_singleton.
Qed.

Lemma unmixed_other c u d out : d <> c -> unmixed c u -> unmixed c (u ++ map (pair d) out).
Proof.
  intros Nd. revert u. induction out as [|b out IH] using rev_ind; intros u H; [by rewrite app_nil_r|].
  rewrite map_app, app_assoc. specialize (IH u H). set (v := u ++ map (pair d) out) in *. clearbody v.
  intros a b1 m b2 z E Nn y Hy.
  destruct z as [|w z _] using rev_ind.
  - exfalso. cbn [map] in E. rewrite app_comm_cons, app_assoc in E. apply app_inj_tail in E as [_ E]. congruence.
  - cbn [map] in E. rewrite !app_comm_cons, !app_assoc in E. apply app_inj_tail in E as [E _].
    eapply (IH a b1 m b2 z); [|done|done]. rewrite E. rewrite <-!app_assoc. done.
Qed.

Lemma unmixed_same c u0 e b : closed c u0 -> unmixed c (u0 ++ map (pair c) e) -> unmixed c (u0 ++ map (pair c) (e ++ [b])).
Proof.
  intros Cl H. rewrite map_app, app_assoc. intros a b1 m b2 z E Nn y Hy.
  destruct z as [|w z _] using rev_ind.
  - cbn [map] in E. rewrite app_comm_cons, app_assoc in E. apply app_inj_tail in E as [E _].
    apply List.app_eq_app in E as (l & [[E1 E2]|[E1 E2]]).
    + destruct l as [|p l].
      * cbn in E2. assert (y ∈ map (pair c) e) as Hin by (rewrite <-E2; apply elem_of_cons; by right).
        apply elem_of_list_fmap in Hin as (q & -> & _). done.
      * cbn in E2. injection E2 as <- E2. subst u0. exfalso. apply Nn.
        apply closed_split in Cl. rewrite E2. rewrite app_comm_cons. apply elem_of_app. by left.
    + assert (y ∈ map (pair c) e) as Hin. { rewrite E2. apply elem_of_app. right. apply elem_of_cons. by right. }
      apply elem_of_list_fmap in Hin as (q & -> & _). done.
  - cbn [map] in E. rewrite !app_comm_cons, !app_assoc in E. apply app_inj_tail in E as [E _].
    eapply (H a b1 m b2 z); [|done|done]. rewrite E. rewrite <-!app_assoc. done.
Qed.

Lemma byc_other c d out : d <> c -> byc c (map (pair d) out) = [].
Proof. intros H. induction out as [|b out IH]; [done|]. cbn. destruct (Nat.eqb_spec d c); [done|]. exact IH. Qed.
Lemma closed_other c u d out : d <> c -> closed c u -> closed c (u ++ map (pair d) out).
Proof. intros Nd. unfold closed. rewrite byc_app, byc_other, app_nil_r by done. done. Qed.
Lemma closed_done c u0 e x : e = x ++ [NL] -> closed c (u0 ++ map (pair c) e).
Proof. intros ->. right. rewrite byc_app, byc_same. exists (byc c u0 ++ x). by rewrite app_assoc. Qed.
Lemma finish_L c cap u b client ret : NL ∉ b -> closed c u -> L c cap u (mkCore b (finish client ret)).
Proof. intros H1 H2. unfold finish. split; [done|]. destruct client; [destruct ret|]; done. Qed.

Definition LInv (c : nat) (cap : N) (s : st) : Prop :=
  unmixed c (users (s_line s)) /\ forall k, s_cores s !! c = Some k -> L c cap (users (s_line s)) k.

Lemma linv_step c l s e s' : Inv l s -> LInv c (s_cap s) s -> step s e = Some s' ->
  texts_ok one_nl c (l ++ [e]) -> lines_upto (s_cap s) (said c (l ++ [e])) -> LInv c (s_cap s) s'.
Proof.
  intros [Say Len Lock] [Um HL] St T1 T2. apply step_kind in St.
  destruct St as [d base text kd -> Hd Hp A ->|d base text -> A ->|d kd -> Hd H|text Ne HC HLk Hl Hcap Hcl Hr].
  - unfold LInv, upd. cbn [s_line s_cores map]. rewrite app_nil_r. split; [done|]. intros k Hk.
    destruct (ins_lookup _ _ _ _ _ Hk) as [(-> & -> & _)|[N H']]; [|by apply HL].
    destruct (HL _ Hd) as [Nb Cl]. rewrite Hp in Cl.
    rewrite said_app, said_one_print, Nat.eqb_refl, (Say _ _ Hd) in T2. unfold pend in T2. rewrite Hp in T2.
    unfold begin. destruct (cut text) as [[low high]|] eqn:C.
    + destruct (cut_some _ _ _ C) as (a & -> & Na & ->). split; [done|]. cbn [k_ph]. split; [done|].
      assert (Nh : NL ∉ high).
      { eapply (T1 base (a ++ NL :: high)); [|done]. apply elem_of_app. right. by apply elem_of_list_singleton. }
      exists a, high. do 4 (split; [done|]). eapply T2; [|done].
      instantiate (1 := []). instantiate (1 := (shown d (s_line s) ++ k_buf kd) ++ a ++ [NL]).
      rewrite app_nil_r. by rewrite <-!app_assoc.
    + apply cut_none in C.
      assert (Hlen : N.of_nat (length (k_buf kd ++ text)) <= s_cap s).
      { eapply (T2 (shown d (s_line s)) (k_buf kd ++ text) []); [by rewrite app_nil_r, app_assoc|].
        rewrite elem_of_app. tauto. }
      rewrite app_length in Hlen.
      destruct (N.ltb_spec (s_cap s - N.of_nat (length (k_buf kd))) (N.of_nat (length text))); [lia|].
      split; [cbn; rewrite elem_of_app; tauto|done].
  - done.
  - destruct (decide (d = c)) as [-> |N].
    + pose proof (HL _ Hd) as HLk. unfold core_step in H. destruct kd as [b ph]. destruct HLk as [Nb HLk]. cbn [k_ph k_buf] in *.
      destruct ph as [|lo hi|[|x out] [hi|] ret|[|x out] ret|ret]; try done.
      * destruct (s_lock s); [done|]. injection H as <-. unfold LInv, upd. cbn [s_line s_cores map]. rewrite app_nil_r.
        split; [done|]. intros k Hk. rewrite (ins_same _ _ _ _ Hd) in Hk. injection Hk as <-. split; [done|]. cbn [k_ph].
        destruct HLk as (Cl & a & h & -> & Na & -> & Nh & Lh). exists (users (s_line s)), [], (b ++ a), h.
        split; [by rewrite app_nil_r|]. split; [done|]. split; [cbn; by rewrite <-app_assoc|].
        split; [rewrite elem_of_app; tauto|]. done.
      * destruct HLk as (u0 & e & x & h & Eu & Cl & Ee & Nx & [= ->] & Nh & Lh). rewrite app_nil_r in Ee.
        destruct (N.leb_spec (N.of_nat (length h)) (s_cap s - 0)); [|lia].
        injection H as <-. unfold LInv, upd. cbn [s_line s_cores map]. rewrite app_nil_r.
        split; [done|]. intros k Hk. rewrite (ins_same _ _ _ _ Hd) in Hk. injection Hk as <-.
        apply finish_L; [done|]. rewrite Eu. by eapply closed_done.
      * destruct HLk as (u0 & e & x & h & Eu & Cl & Ee & Nx & ? & Nh & Lh). done.
      * injection H as <-. unfold LInv, upd. cbn [s_line s_cores]. rewrite users_app, users_out.
        destruct HLk as (u0 & e & y & h & Eu & Cl & Ee & Ny & E & Nh & Lh).
        rewrite Eu in *. rewrite <-app_assoc, <-map_app. split; [by apply unmixed_same|].
        intros k Hk. rewrite (ins_same _ _ _ _ Hd) in Hk. injection Hk as <-. split; [done|]. cbn [k_ph].
        exists u0, (e ++ [x]), y, h. rewrite <-app_assoc. done.
      * destruct HLk as (u0 & e & y & h & Eu & Cl & Ee & Ny & ? & Nh & Lh). done.
      * injection H as <-. unfold LInv, upd. cbn [s_line s_cores map]. rewrite app_nil_r.
        split; [done|]. intros k Hk. rewrite (ins_same _ _ _ _ Hd) in Hk. injection Hk as <-. done.
    + destruct (core_step_spec _ _ _ _ Hd H) as (k' & lock & out & HC & _ & Hl & _ & _ & _ & _ & _ & _ & _ & O).
      unfold LInv. rewrite HC, Hl, users_app, users_out. split; [by apply unmixed_other|].
      intros k Hk. rewrite list_lookup_insert_ne in Hk by congruence. pose proof (HL _ Hk) as HLk.
      destruct out as [|y out]; [by rewrite app_nil_r|].
      assert (Bd : busy kd = true) by by apply O.
      assert (Bk : busy k = false).
      { destruct (busy k) eqn:B; [|done]. assert (s_lock s = Some d) by (apply Lock; by exists kd).
        assert (s_lock s = Some c) by (apply Lock; by exists k). congruence. }
      destruct HLk as [Nb HLk]. split; [done|]. unfold busy in Bk. destruct (k_ph k); try done.
      * by apply closed_other.
      * destruct HLk as [Cl HLk]. split; [by apply closed_other|done].
      * by apply closed_other.
  - unfold LInv. rewrite HC, Hl, users_app, users_kern, app_nil_r. done.
Qed.

Lemma unmixed_nil c : unmixed c [].
Proof. intros a b1 m b2 z E. destruct a; done. Qed.
Lemma texts_ok_prefix P c l e : texts_ok P c (l ++ [e]) -> texts_ok P c l.
Proof. intros H base text Hin. apply (H base). apply elem_of_app. by left. Qed.
Lemma printable_prefix l e : all_printable (l ++ [e]) -> all_printable l.
Proof. intros H c base text Hin. apply (H c). apply elem_of_app. by left. Qed.
Lemma lines_prefix m a b : lines_upto m (a ++ b) -> lines_upto m a.
Proof. intros H x l y -> N. eapply (H x l (y ++ b)); [by rewrite <-!app_assoc|done]. Qed.

Lemma unmixed_run client cap n c l s : all_printable l -> texts_ok one_nl c l -> lines_upto cap (said c l) ->
  run (init client cap n) l = Some s -> unmixed c (users (s_line s)).
Proof.
  intros Pr T1 T2 R. cut (LInv c cap s); [intros [H _]; done|]. revert Pr T1 T2.
  destruct (run_ind' client cap n (fun l s => all_printable l -> texts_ok one_nl c l -> lines_upto cap (said c l) -> LInv c cap s))
    with (l := l) (s := s) as (A & _ & _); try done.
  - intros _ _ _. split; [apply unmixed_nil|]. intros k H. cbn in H. apply lookup_replicate in H as [-> _].
    split; [apply not_elem_of_nil|]. left. done.
  - intros l0 s0 e s' IH R0 E1 E2 St Pr T1 T2.
    assert (Pr0 := printable_prefix _ _ Pr). destruct (inv_run _ _ _ _ _ Pr0 R0) as (I0 & _ & _).
    assert (LI : LInv c cap s0).
    { apply IH; [done|by eapply texts_ok_prefix|]. rewrite said_app in T2. by eapply lines_prefix. }
    rewrite <-E2 in LI, T2 |- *. by eapply linv_step.
Qed.

(** ** The copy at the controller *)
Definition R (c : nat) (s : st) (k : core) : Prop :=
  match k_ph k with
  | PIdle => copied c (s_remote s) = shown c (s_line s)
  | PWait _ hi => copied c (s_remote s) = shown c (s_line s) /\ (forall h, hi = Some h -> N.of_nat (length h) <= s_cap s)
  | PLow out hi ret => copied c (s_remote s) ++ ret = shown c (s_line s) ++ out /\ (forall h, hi = Some h -> N.of_nat (length h) <= s_cap s)
  | PHigh _ _ => False
  | PRpc ret => copied c (s_remote s) ++ ret = shown c (s_line s)
  end.

Lemma finish_R c s b ret : s_client s = true -> copied c (s_remote s) ++ ret = shown c (s_line s) ->
  R c s (mkCore b (finish (s_client s) ret)).
Proof. intros -> H. unfold finish, R. destruct ret; cbn; [by rewrite app_nil_r in H|done]. Qed.

Lemma r_step c s e s' : s_client s = true -> (forall k, s_cores s !! c = Some k -> R c s k) -> step s e = Some s' ->
  (forall base text, e = EPrint c base text -> tail_fits (s_cap s) text) -> forall k, s_cores s' !! c = Some k -> R c s' k.
Proof.
  intros Cl HR St T k Hk. apply step_kind in St.
  destruct St as [d base text kd -> Hd Hp A ->|d base text -> A ->|d kd -> Hd H|text Ne HC HLk Hl Hcap Hcl Hr].
  - cbn in Hk. destruct (ins_lookup _ _ _ _ _ Hk) as [(-> & -> & _)|[N H']].
    + specialize (HR _ Hd). unfold R in HR. rewrite Hp in HR. unfold begin, R, upd. cbn [s_line s_remote s_cap map]. rewrite app_nil_r.
      destruct (cut text) as [[low high]|] eqn:C.
      * cbn [k_ph]. split; [done|]. intros h [= <-]. destruct (cut_some _ _ _ C) as (a & -> & Na & ->). by eapply T.
      * destruct (_ <? _); cbn [k_ph]; done.
    + specialize (HR _ H'). unfold R in *. unfold upd. cbn [s_line s_remote s_cap map]. by rewrite app_nil_r.
  - by apply HR.
  - destruct (decide (d = c)) as [-> |N].
    + specialize (HR _ Hd). unfold core_step in H. destruct kd as [b ph]. unfold R in HR. cbn [k_ph k_buf] in *.
      destruct ph as [|lo hi|[|x out] [hi|] ret|[|x out] ret|ret]; try done.
      * destruct (s_lock s); [done|]. injection H as <-. cbn in Hk. rewrite (ins_same _ _ _ _ Hd) in Hk. injection Hk as <-.
        unfold R, upd. cbn [k_ph s_line s_remote s_cap map]. rewrite app_nil_r. destruct HR as [-> HR]. done.
      * destruct HR as [HR Hh]. specialize (Hh hi eq_refl). rewrite app_nil_r in HR.
        destruct (N.leb_spec (N.of_nat (length hi)) (s_cap s - 0)); [|lia]. injection H as <-. cbn in Hk.
        rewrite (ins_same _ _ _ _ Hd) in Hk. injection Hk as <-.
        apply (finish_R c (upd s c (mkCore hi (finish (s_client s) ret)) None [])); [done|].
        unfold upd. cbn [s_line s_remote map]. by rewrite app_nil_r.
      * destruct HR as [HR _]. rewrite app_nil_r in HR. injection H as <-. cbn in Hk.
        rewrite (ins_same _ _ _ _ Hd) in Hk. injection Hk as <-.
        apply (finish_R c (upd s c (mkCore [] (finish (s_client s) ret)) None [])); [done|].
        unfold upd. cbn [s_line s_remote map]. by rewrite app_nil_r.
      * injection H as <-. cbn in Hk. rewrite (ins_same _ _ _ _ Hd) in Hk. injection Hk as <-.
        unfold R, upd. cbn [k_ph s_line s_remote s_cap]. rewrite shown_app, shown_out_same, <-app_assoc. done.
      * injection H as <-. cbn in Hk. rewrite (ins_same _ _ _ _ Hd) in Hk. injection Hk as <-.
        unfold R, upd. cbn [k_ph s_line s_remote s_cap]. rewrite shown_app, shown_out_same, <-app_assoc. done.
      * injection H as <-. cbn [s_cores upd] in Hk. rewrite (ins_same _ _ _ _ Hd) in Hk. injection Hk as <-.
        unfold R, upd. cbn [k_ph s_line s_remote s_cap map]. rewrite app_nil_r, copied_app. rewrite <-HR. f_equal.
        unfold copied. cbn. rewrite Nat.eqb_refl. apply app_nil_r.
    + destruct (core_step_spec _ _ _ _ Hd H) as (k' & lock & out & HC & _ & Hl & Hcap & _ & _ & Hr & _).
      rewrite HC in Hk. rewrite list_lookup_insert_ne in Hk by congruence. specialize (HR _ Hk). unfold R in *.
      rewrite Hl, Hcap, shown_app, shown_out_other, app_nil_r, Hr by congruence. done.
  - rewrite HC in Hk. specialize (HR _ Hk). unfold R in *. rewrite Hr, Hl, Hcap, shown_app, shown_kern, app_nil_r. done.
Qed.

Lemma copied_run cap n c l s : texts_ok (tail_fits cap) c l -> run (init true cap n) l = Some s -> returned c s ->
  copied c (s_remote s) = shown c (s_line s).
Proof.
  intros T Ru (k & Hk & Hp). cut (R c s k); [unfold R; by rewrite Hp|]. revert k Hk Hp. intros k Hk _. revert k Hk.
  destruct (run_ind' true cap n (fun l s => texts_ok (tail_fits cap) c l -> forall k, s_cores s !! c = Some k -> R c s k))
    with (l := l) (s := s) as (A & _ & _); try done.
  - intros _ k H. cbn in H. apply lookup_replicate in H as [-> _]. done.
  - intros l0 s0 e s' IH R0 E1 E2 St T0. eapply r_step; [done| |done|].
    + apply IH. by eapply texts_ok_prefix.
    + intros base text ->. rewrite E2. apply (T0 base). apply elem_of_app. right. by apply elem_of_list_singleton.
  - by apply A.
Qed.

(** ** Calls return *)
Definition work (k : core) : nat :=
  match k_ph k with
  | PIdle => 0 | PRpc _ => 1 | PHigh out _ => length out + 2
  | PLow out hi _ => length out + length (default [] hi) + 4
  | PWait low hi => length (k_buf k) + length low + length (default [] hi) + 5
  end.
Fixpoint works (l : list core) : nat := match l with [] => 0 | k :: l => work k + works l end.
Lemma works_ins l c k k' : l !! c = Some k -> (works (<[c := k']> l) + work k = works l + work k')%nat.
Proof.
  revert c. induction l as [|x l IH]; intros c H; [done|]. destruct c as [|c].
  - injection H as ->. cbn. lia.
  - change (<[S c := k']> (x :: l)) with (x :: <[c := k']> l). cbn [works]. specialize (IH c H). lia.
Qed.
Lemma work_finish client ret b : (work (mkCore b (finish client ret)) <= 1)%nat.
Proof. unfold finish, work. cbn. destruct client; [destruct ret|]; cbn; lia. Qed.

Lemma core_step_work s c k s' : s_cores s !! c = Some k -> core_step s c k = Some s' -> (works (s_cores s') < works (s_cores s))%nat.
Proof.
  intros Hk H. unfold core_step in H. destruct k as [b ph]. cbn [k_ph k_buf] in *.
  assert (W := fun k' => works_ins _ _ _ k' Hk).
  destruct ph as [|lo hi|[|x out] [hi|] ret|[|x out] ret|ret]; try done.
  - destruct (s_lock s); [done|]. injection H as <-. cbn [s_cores upd]. specialize (W (mkCore b (PLow (b ++ lo) hi (b ++ lo)))).
    unfold work in W. cbn [k_ph k_buf] in W. rewrite app_length in W. lia.
  - destruct (_ <=? _); injection H as <-; cbn [s_cores upd].
    + specialize (W (mkCore hi (finish (s_client s) ret))). pose proof (work_finish (s_client s) ret hi).
      match type of W with (_ + ?w = _)%nat => assert (4 <= w)%nat by (unfold work; cbn [k_ph]; lia) end. lia.
    + specialize (W (mkCore [] (PHigh hi hi))). change (work (mkCore [] (PHigh hi hi))) with (length hi + 2)%nat in W.
      change (work (mkCore b (PLow [] (Some hi) ret))) with (length hi + 4)%nat in W. lia.
  - injection H as <-. cbn [s_cores upd]. specialize (W (mkCore [] (finish (s_client s) ret))). pose proof (work_finish (s_client s) ret []).
    match type of W with (_ + ?w = _)%nat => assert (4 <= w)%nat by (unfold work; cbn [k_ph]; lia) end. lia.
  - injection H as <-. cbn [s_cores upd]. specialize (W (mkCore b (PLow out (Some hi) ret))). unfold work in W. cbn [k_ph k_buf length] in W. lia.
  - injection H as <-. cbn [s_cores upd]. specialize (W (mkCore b (PLow out None ret))). unfold work in W. cbn [k_ph k_buf length] in W. lia.
  - injection H as <-. cbn [s_cores upd]. specialize (W (mkCore b (finish (s_client s) ret))). pose proof (work_finish (s_client s) ret b).
    match type of W with (_ + ?w = _)%nat => assert (2 <= w)%nat by (unfold work; cbn [k_ph]; lia) end. lia.
  - injection H as <-. cbn [s_cores upd]. specialize (W (mkCore b (PHigh out ret))). unfold work in W. cbn [k_ph k_buf length] in W. lia.
  - injection H as <-. cbn [s_cores upd]. specialize (W (mkCore b PIdle)). unfold work in W. cbn [k_ph k_buf length] in W. lia.
Qed.

Lemma steps_bound l s s' : (forall e, e ∈ l -> exists c, e = EStep c) -> run s l = Some s' -> (length l + works (s_cores s') <= works (s_cores s))%nat.
Proof.
  revert s. induction l as [|e l IH]; intros s A H; [injection H as <-; cbn; lia|].
  cbn [run] in H. destruct (step s e) as [s1|] eqn:St; [|done].
  assert (A' : forall e, e ∈ l -> exists c, e = EStep c) by (intros e' H'; apply A; apply elem_of_cons; by right).
  specialize (IH s1 A' H). destruct (A e) as [c ->]; [apply elem_of_cons; by left|].
  unfold step in St. destruct (s_off s); [done|]. destruct (s_cores s !! c) as [k|] eqn:Hk; [|done].
  pose proof (core_step_work _ _ _ _ Hk St). cbn [length]. lia.
Qed.

Lemma some_step l s c k : Inv l s -> s_off s = false -> s_cores s !! c = Some k -> k_ph k <> PIdle ->
  exists d s', step s (EStep d) = Some s'.
Proof.
  intros [_ _ Lock] Off Hk Hp.
  assert (Busy : forall d kd, s_cores s !! d = Some kd -> busy kd = true -> exists s', step s (EStep d) = Some s').
  { intros d kd Hd B. unfold step. rewrite Off, Hd. unfold core_step. unfold busy in B.
    destruct (k_ph kd) as [| |[|x out] [hi|] ret|[|x out] ret|]; try done; try by eexists. destruct (_ <=? _); by eexists. }
  destruct (busy k) eqn:B; [exists c; by eapply Busy|].
  destruct (s_lock s) as [d|] eqn:Lk.
  - destruct (proj1 (Lock d) eq_refl) as (kd & Hd & Bd). exists d. by eapply Busy.
  - exists c. unfold step. rewrite Off, Hk. unfold core_step. unfold busy in B. destruct (k_ph k); try done; [rewrite Lk|]; by eexists.
Qed.

(** A way to see that lines are short. *)
Lemma lines_nil m : lines_upto m [].
Proof. intros a l b E _. destruct a, l; try done. cbn. lia. Qed.
Lemma lines_cut m u v : NL ∉ u -> N.of_nat (length u) <= m -> lines_upto m v -> lines_upto m (u ++ NL :: v).
Proof.
  intros Nu Lu Hv a. revert u Nu Lu. induction a as [|x a IH]; intros u Nu Lu w b E Nw.
  - cbn in E. assert (length w <= length u)%nat; [|lia]. clear Lu Hv. revert u Nu E. induction w as [|z w IHw]; intros u Nu E; [cbn; lia|].
    rewrite not_elem_of_cons in Nw. destruct u as [|y u].
    + injection E as E _. destruct Nw as [Nw _]. congruence.
    + injection E as _ E. rewrite not_elem_of_cons in Nu. cbn. apply le_n_S. apply IHw; tauto.
  - destruct u as [|y u].
    + injection E as _ E. by eapply Hv.
    + injection E as _ E. rewrite not_elem_of_cons in Nu. cbn in Lu. eapply (IH u); [tauto|lia|done|done].
Qed.
