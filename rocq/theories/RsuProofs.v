(** Proofs for C75. *)
From Verif Require Import Base RsuModel RsuSpec.
Local Opaque dispatch register_rpcs.

(** *** Sums over 1..K *)
Fixpoint sum (g : nat -> nat) (K : nat) : nat := match K with 0 => 0 | S k => sum g k + g (S k) end.

Lemma sum_ext g g' K : (forall i, 1 <= i <= K -> g' i = g i) -> sum g' K = sum g K.
Proof. induction K as [|k IH]; intros H; cbn; [done|]. rewrite IH, H by (intros; try apply H; lia). done. Qed.

Lemma sum_upd g g' i K : 1 <= i <= K -> (forall j, j <> i -> g' j = g j) -> sum g' K + g i = sum g K + g' i.
Proof.
  intros Hi H. induction K as [|k IH]; [lia|]. cbn. destruct (decide (i = S k)) as [->|Hn].
  - rewrite (sum_ext g g' k); [lia|]. intros j Hj. apply H. lia.
  - rewrite (H (S k)) by lia. assert (1 <= i <= k) by lia. specialize (IH ltac:(lia)). lia.
Qed.

Lemma sum_const c K : sum (fun _ => c) K = c * K.
Proof. induction K as [|k IH]; cbn; [lia|]. rewrite IH. lia. Qed.

Lemma sum_le g g' K : (forall i, 1 <= i <= K -> g i <= g' i) -> sum g K <= sum g' K.
Proof. induction K as [|k IH]; intros H; cbn; [lia|]. pose proof (H (S k) ltac:(lia)). specialize (IH ltac:(intros; apply H; lia)). lia. Qed.

Lemma sum_max g c K : (forall i, 1 <= i <= K -> g i <= c) -> sum g K = c * K -> forall i, 1 <= i <= K -> g i = c.
Proof.
  intros H E i Hi. induction K as [|k IH]; [lia|]. cbn in E. pose proof (H (S k) ltac:(lia)).
  pose proof (sum_le g (fun _ => c) k ltac:(intros; apply H; lia)) as L. rewrite sum_const in L.
  destruct (decide (i = S k)) as [->|]; [lia|]. apply IH; [intros; apply H; lia|lia|lia].
Qed.

Lemma sum_lt_ex g c K : (forall i, 1 <= i <= K -> g i <= c) -> sum g K < c * K -> exists i, 1 <= i <= K /\ g i < c.
Proof.
  intros H L. induction K as [|k IH]; [lia|]. cbn in L. destruct (decide (g (S k) < c)) as [?|?]; [exists (S k); lia|].
  pose proof (H (S k) ltac:(lia)). destruct IH as (i & Hi & Hl); [intros; apply H; lia|lia|]. exists i. lia.
Qed.

(** *** Ranks *)
Definition rank (p : spc) : nat := match p with SNew => 0 | SArrive => 1 | SReady => 2 | SAccept => 3 | SArrive2 => 4 | SAll => 5 | SServe => 6 end.
Definition crank (c : cpc) : nat := match c with CNew => 0 | CReg => 1 | _ => 2 end.
Definition prank (p : ppc) : nat := match p with PDcm => 0 | PWait => 1 | PReset => 2 | PSignal => 3 | PLoop => 4 end.
Definition total (K : nat) (s : st) : nat := prank (s_poll s) + sum (fun i => rank (s_srv s i) + crank (s_cli s i)) K.
Definition past (n : nat) (s : st) (i : nat) : nat := if decide (n <= rank (s_srv s i)) then 1 else 0.

(** *** The invariant *)
Definition fin (i : nat) (ps : list (rpc * handler)) : list event :=
  concat (map (fun p => [ECall i p.1; EHandle i p.1 p.2; ERet i p.1 p.2]) ps).

Definition chan (s : st) (i : nat) : Prop :=
  let p := rank (s_srv s i) in
  exists ps, Forall (fun x => dispatch x.1 = Some x.2) ps /\
  match s_cli s i with
  | CNew => p <= 3 /\ s_req s i = None /\ s_rep s i = None /\ calls_of i (s_log s) = fin i ps
  | CReg => calls_of i (s_log s) = fin i ps /\
            ((p <= 3 /\ s_req s i = Some MReg /\ s_rep s i = None) \/ (4 <= p /\ s_req s i = None /\ s_rep s i = Some RReg))
  | CRun => 4 <= p /\ s_req s i = None /\ s_rep s i = None /\ calls_of i (s_log s) = fin i ps
  | CWait r => 4 <= p /\
      ((s_req s i = Some (MCall r) /\ s_rep s i = None /\ calls_of i (s_log s) = fin i ps ++ [ECall i r]) \/
       (exists h, dispatch r = Some h /\ s_req s i = None /\ s_rep s i = Some (RRes h) /\ calls_of i (s_log s) = fin i ps ++ [ECall i r; EHandle i r h]) \/
       (dispatch r = None /\ s_req s i = None /\ s_rep s i = None /\ calls_of i (s_log s) = fin i ps ++ [ECall i r]))
  end.

Definition phase (K : nat) (s : st) : Prop :=
  match s_poll s with
  | PDcm | PWait => s_ready s = false /\ s_cnt s = sum (past 2 s) K /\ forall i, 1 <= i <= K -> rank (s_srv s i) <= 2
  | PReset => s_ready s = false /\ s_cnt s = K /\ forall i, 1 <= i <= K -> rank (s_srv s i) = 2
  | PSignal => s_ready s = false /\ s_cnt s = 0 /\ forall i, 1 <= i <= K -> rank (s_srv s i) = 2
  | PLoop => s_ready s = true /\ s_cnt s = sum (past 5 s) K /\ forall i, 1 <= i <= K -> 2 <= rank (s_srv s i)
  end.

Definition order (K : nat) (before : list event) (e : event) : Prop :=
  match e with
  | EReg i => EReady ∈ before /\ EReg i ∉ before
  | EHandle _ _ _ => EReady ∈ before /\ forall j, 1 <= j <= K -> EReg j ∈ before
  | _ => True
  end.
Definition ordered (K : nat) (l : list event) : Prop := forall a e b, l = a ++ e :: b -> order K a e.

Lemma ordered_snoc K l e : ordered K l -> order K l e -> ordered K (l ++ [e]).
Proof.
  intros H He a x b E. destruct b as [|y b] using rev_ind.
  - apply app_inj_tail in E as [-> ->]. exact He.
  - clear IHb. rewrite app_comm_cons, app_assoc in E. apply app_inj_tail in E as [E _]. exact (H _ _ _ E).
Qed.

Record inv (K : nat) (s : st) : Prop := Inv {
  i_chan : forall i, 1 <= i <= K -> chan s i;
  i_phase : phase K s;
  i_all : forall i, 1 <= i <= K -> s_srv s i = SServe -> forall j, 1 <= j <= K -> 5 <= rank (s_srv s j);
  i_reg : forall i, 1 <= i <= K -> (EReg i ∈ s_log s <-> 4 <= rank (s_srv s i));
  i_ready : s_ready s = true -> EReady ∈ s_log s;
  i_ord : ordered K (s_log s) }.

Lemma upd_eq {A} (f : nat -> A) i x : upd f i x i = x.
Proof. unfold upd. by rewrite decide_True. Qed.
Lemma upd_ne {A} (f : nat -> A) i j x : j <> i -> upd f i x j = f j.
Proof. intros. unfold upd. by rewrite decide_False. Qed.

Lemma calls_app i l l' : calls_of i (l ++ l') = calls_of i l ++ calls_of i l'.
Proof. induction l as [|e l IH]; cbn; [done|]. destruct (of_client i e); cbn; rewrite IH; done. Qed.
Lemma fin_snoc i ps r h : fin i (ps ++ [(r, h)]) = fin i ps ++ [ECall i r; EHandle i r h; ERet i r h].
Proof. unfold fin. rewrite map_app, concat_app. cbn. done. Qed.

Lemma init_inv K : inv K st0.
Proof.
  constructor.
  - intros i _. exists []. split; [constructor|]. cbn. repeat split; lia.
  - cbn. split; [done|]. split; [|intros; lia]. rewrite (sum_ext (fun _ => 0)); [rewrite sum_const; lia|]. intros. unfold past. cbn. rewrite decide_False by lia. done.
  - intros i _ H. discriminate H.
  - intros i _. cbn. split; [intros H; inversion H|lia].
  - discriminate.
  - intros a e b E. destruct a; discriminate E.
Qed.

Lemma chan_eq s s' i : s_srv s' i = s_srv s i -> s_cli s' i = s_cli s i -> s_req s' i = s_req s i -> s_rep s' i = s_rep s i ->
  calls_of i (s_log s') = calls_of i (s_log s) -> chan s i -> chan s' i.
Proof. unfold chan. intros -> -> -> -> ->. done. Qed.

(** A step of the channel's server that only moves its counter. *)
Lemma chan_srv s s' i : (rank (s_srv s' i) <= 3 <-> rank (s_srv s i) <= 3) -> s_cli s' i = s_cli s i -> s_req s' i = s_req s i -> s_rep s' i = s_rep s i ->
  calls_of i (s_log s') = calls_of i (s_log s) -> chan s i -> chan s' i.
Proof.
  unfold chan. intros Hr -> -> -> ->. intros (ps & Hps & H). exists ps. split; [exact Hps|].
  destruct (s_cli s i).
  - destruct H as (H & H'). split; [tauto|exact H'].
  - destruct H as (H & [(H1 & H')|(H1 & H')]); (split; [exact H|]); [left|right]; (split; [lia|exact H']).
  - destruct H as (H & H'). split; [lia|exact H'].
  - destruct H as (H & H'). split; [lia|exact H'].
Qed.

Lemma past_upd n s s' i K p : 1 <= i <= K -> s_srv s' = upd (s_srv s) i p ->
  sum (past n s') K + past n s i = sum (past n s) K + (if decide (n <= rank p) then 1 else 0).
Proof.
  intros Hi E. rewrite (sum_upd (past n s) (past n s') i K Hi).
  - f_equal. unfold past. rewrite E, upd_eq. done.
  - intros j Hj. unfold past. rewrite E, upd_ne by done. done.
Qed.

Ltac inlog := rewrite elem_of_app, elem_of_list_singleton.

Lemma srv_inv K i s : 1 <= i <= K -> inv K s -> inv K (srv_step K i s).
Proof.
  intros Hi I. pose proof I as [C P A R Y O]. unfold srv_step. destruct (s_srv s i) eqn:Es.
  - (* SNew *)
    destruct register_rpcs; [|exact I]. constructor; cbn.
    + intros j Hj. eapply chan_srv; [..|apply C, Hj]; try done. cbn. unfold upd. destruct (decide (j = i)) as [->|]; [rewrite Es; cbn; lia|done].
    + unfold phase in *. cbn in *. pose proof (past_upd 2 s (set_srv s i SArrive) i K SArrive Hi eq_refl) as S2.
      unfold past in S2 at 2. rewrite Es in S2. cbn in S2. rewrite !decide_False in S2 by lia.
      destruct (s_poll s).
      1, 2: destruct P as (P1 & P2 & P3); (split; [done|]); (split; [lia|]); intros j Hj; unfold upd; destruct (decide (j = i)); [cbn; lia|by apply P3].
      all: destruct P as (P1 & P2 & P3); pose proof (P3 i Hi) as X; rewrite Es in X; cbn in X; lia.
    + intros j Hj. unfold upd. destruct (decide (j = i)); [done|]. intros H k Hk. pose proof (A j Hj H i Hi) as X. rewrite Es in X. cbn in X. lia.
    + intros j Hj. rewrite (R j Hj). unfold upd. destruct (decide (j = i)) as [->|]; [rewrite Es; cbn; lia|done].
    + exact Y.
    + exact O.
  - (* SArrive *)
    constructor; cbn.
    + intros j Hj. eapply chan_srv; [..|apply C, Hj]; try done. cbn. unfold upd. destruct (decide (j = i)) as [->|]; [rewrite Es; cbn; lia|done].
    + unfold phase in *. cbn in *. pose proof (past_upd 2 s (set_cnt (set_srv s i SReady) (s_cnt s + 1)) i K SReady Hi eq_refl) as S2.
      unfold past in S2 at 2. rewrite Es in S2. cbn in S2. rewrite decide_False, decide_True in S2 by lia.
      destruct (s_poll s).
      1, 2: destruct P as (P1 & P2 & P3); (split; [done|]); (split; [lia|]); intros j Hj; unfold upd; destruct (decide (j = i)); [cbn; lia|by apply P3].
      all: destruct P as (P1 & P2 & P3); pose proof (P3 i Hi) as X; rewrite Es in X; cbn in X; lia.
    + intros j Hj. unfold upd. destruct (decide (j = i)); [done|]. intros H k Hk. pose proof (A j Hj H i Hi) as X. rewrite Es in X. cbn in X. lia.
    + intros j Hj. rewrite (R j Hj). unfold upd. destruct (decide (j = i)) as [->|]; [rewrite Es; cbn; lia|done].
    + exact Y.
    + exact O.
  - (* SReady *)
    destruct (s_ready s) eqn:Er; [|exact I]. constructor; cbn.
    + intros j Hj. eapply chan_srv; [..|apply C, Hj]; try done. cbn. unfold upd. destruct (decide (j = i)) as [->|]; [rewrite Es; cbn; lia|done].
    + unfold phase in *. cbn in *. pose proof (past_upd 5 s (set_srv s i SAccept) i K SAccept Hi eq_refl) as S2.
      unfold past in S2 at 2. rewrite Es in S2. cbn in S2. rewrite !decide_False in S2 by lia.
      destruct (s_poll s); try (destruct P as (P1 & _); congruence).
      destruct P as (P1 & P2 & P3). split; [done|]. split; [lia|]. intros j Hj. unfold upd. destruct (decide (j = i)); [cbn; lia|by apply P3].
    + intros j Hj. unfold upd. destruct (decide (j = i)); [done|]. intros H k Hk. pose proof (A j Hj H i Hi) as X. rewrite Es in X. cbn in X. lia.
    + intros j Hj. rewrite (R j Hj). unfold upd. destruct (decide (j = i)) as [->|]; [rewrite Es; cbn; lia|done].
    + intros _. by apply Y.
    + exact O.
  - (* SAccept *)
    destruct (s_req s i) as [[|r]|] eqn:Eq; try exact I.
    assert (NR : EReg i ∉ s_log s). { rewrite (R i Hi), Es. cbn. lia. }
    assert (RD : s_ready s = true). { unfold phase in P. destruct (s_poll s); try apply P; destruct P as (_ & _ & P); specialize (P i Hi); rewrite Es in P; cbn in P; lia. }
    constructor; cbn.
    + intros j Hj. destruct (decide (j = i)) as [->|Hn].
      * destruct (C i Hi) as (ps & Hps & H). rewrite Es, Eq in H. cbn in H. exists ps. split; [exact Hps|]. cbn. rewrite !upd_eq, calls_app. cbn. rewrite app_nil_r.
        destruct (s_cli s i).
        -- destruct H as (_ & H & _). discriminate H.
        -- destruct H as (H & _). split; [exact H|]. right. repeat split; lia.
        -- destruct H as (_ & H & _). discriminate H.
        -- destruct H as (H & _). lia.
      * eapply chan_eq; [..|apply C, Hj]; cbn; try (by rewrite upd_ne by done); try done. rewrite calls_app. cbn. by rewrite app_nil_r.
    + unfold phase in *. cbn. pose proof (past_upd 5 s (say (set_rep (set_req (set_srv s i SArrive2) i None) i (Some RReg)) (EReg i)) i K SArrive2 Hi eq_refl) as S2.
      unfold past in S2 at 2. rewrite Es in S2. cbn in S2. rewrite !decide_False in S2 by lia.
      destruct (s_poll s); try (destruct P as (P1 & _); congruence).
      destruct P as (P1 & P2 & P3). split; [done|]. split; [lia|]. intros j Hj. unfold upd. destruct (decide (j = i)); [cbn; lia|by apply P3].
    + intros j Hj. unfold upd. destruct (decide (j = i)); [done|]. intros H k Hk. pose proof (A j Hj H i Hi) as X. rewrite Es in X. cbn in X. lia.
    + intros j Hj. inlog. rewrite (R j Hj). unfold upd. destruct (decide (j = i)) as [->|Hn]; [cbn; split; [lia|by right]|].
      split; [intros [H|H]; [done|congruence]|by left].
    + intros _. inlog. left. by apply Y.
    + apply ordered_snoc; [exact O|]. cbn. split; [by apply Y|exact NR].
  - (* SArrive2 *)
    constructor; cbn.
    + intros j Hj. eapply chan_srv; [..|apply C, Hj]; try done. cbn. unfold upd. destruct (decide (j = i)) as [->|]; [rewrite Es; cbn; lia|done].
    + unfold phase in *. cbn. pose proof (past_upd 5 s (set_cnt (set_srv s i SAll) (s_cnt s + 1)) i K SAll Hi eq_refl) as S2.
      unfold past in S2 at 2. rewrite Es in S2. cbn in S2. rewrite decide_False, decide_True in S2 by lia.
      destruct (s_poll s); try (destruct P as (_ & _ & P); specialize (P i Hi); rewrite Es in P; cbn in P; lia).
      destruct P as (P1 & P2 & P3). split; [done|]. split; [lia|]. intros j Hj. unfold upd. destruct (decide (j = i)); [cbn; lia|by apply P3].
    + intros j Hj. unfold upd. destruct (decide (j = i)); [done|]. intros H k Hk. pose proof (A j Hj H i Hi) as X. rewrite Es in X. cbn in X. lia.
    + intros j Hj. rewrite (R j Hj). unfold upd. destruct (decide (j = i)) as [->|]; [rewrite Es; cbn; lia|done].
    + exact Y.
    + exact O.
  - (* SAll *)
    destruct (decide (s_cnt s = K)) as [Ek|]; [|exact I].
    assert (ALL : forall j, 1 <= j <= K -> 5 <= rank (s_srv s j)).
    { unfold phase in P. destruct (s_poll s); try (destruct P as (_ & _ & P); specialize (P i Hi); rewrite Es in P; cbn in P; lia).
      destruct P as (_ & P2 & _). rewrite Ek in P2. intros j Hj. assert (X : past 5 s j = 1).
      { apply (sum_max (past 5 s) 1 K); [|lia|exact Hj]. intros k _. unfold past. destruct (decide _); lia. }
      unfold past in X. destruct (decide _); lia. }
    constructor; cbn.
    + intros j Hj. eapply chan_srv; [..|apply C, Hj]; try done. cbn. unfold upd. destruct (decide (j = i)) as [->|]; [rewrite Es; cbn; lia|done].
    + unfold phase in *. cbn. pose proof (past_upd 5 s (set_srv s i SServe) i K SServe Hi eq_refl) as S2.
      unfold past in S2 at 2. rewrite Es in S2. cbn in S2. rewrite !decide_True in S2 by lia.
      destruct (s_poll s); try (destruct P as (_ & _ & P); specialize (P i Hi); rewrite Es in P; cbn in P; lia).
      destruct P as (P1 & P2 & P3). split; [done|]. split; [lia|]. intros j Hj. unfold upd. destruct (decide (j = i)); [cbn; lia|by apply P3].
    + intros j Hj _ k Hk. unfold upd. destruct (decide (k = i)); [cbn; lia|by apply ALL].
    + intros j Hj. rewrite (R j Hj). unfold upd. destruct (decide (j = i)) as [->|]; [rewrite Es; cbn; lia|done].
    + exact Y.
    + exact O.
  - (* SServe *)
    destruct (s_req s i) as [[|r]|] eqn:Eq; try exact I.
    pose proof (A i Hi Es) as ALL.
    assert (RD : s_ready s = true). { unfold phase in P. destruct (s_poll s); try apply P; destruct P as (_ & _ & P); specialize (P i Hi); rewrite Es in P; cbn in P; lia. }
    destruct (C i Hi) as (ps & Hps & H). rewrite Es, Eq in H. cbn in H.
    destruct (dispatch r) as [h|] eqn:Ed.
    + constructor; cbn.
      * intros j Hj. destruct (decide (j = i)) as [->|Hn].
        -- exists ps. split; [exact Hps|]. cbn. rewrite !upd_eq, calls_app. cbn. rewrite Nat.eqb_refl, Es. cbn.
           destruct (s_cli s i) as [| | |r'].
           ++ destruct H as (_ & H & _). discriminate H.
           ++ destruct H as (_ & [(_ & H & _)|(_ & H & _)]); discriminate H.
           ++ destruct H as (_ & H & _). discriminate H.
           ++ destruct H as (_ & [(H1 & H2 & H3)|[(h' & _ & H1 & _)|(_ & H1 & _)]]); try discriminate H1. injection H1 as <-.
              split; [lia|]. right. left. exists h. split; [exact Ed|]. repeat split. rewrite H3, <- app_assoc. done.
        -- eapply chan_eq; [..|apply C, Hj]; cbn; try (by rewrite upd_ne by done); try done. rewrite calls_app. cbn.
           destruct (Nat.eqb_spec i j); [congruence|]. by rewrite app_nil_r.
      * exact P.
      * exact A.
      * intros j Hj. inlog. rewrite (R j Hj). split; [intros [X|X]; [done|discriminate X]|by left].
      * intros X. inlog. left. by apply Y.
      * apply ordered_snoc; [exact O|]. cbn. split; [by apply Y|]. intros j Hj. apply R; [done|]. specialize (ALL j Hj). lia.
    + constructor; cbn; try assumption.
      intros j Hj. destruct (decide (j = i)) as [->|Hn].
      * exists ps. split; [exact Hps|]. cbn. rewrite !upd_eq, Es. cbn.
        destruct (s_cli s i) as [| | |r'].
        -- destruct H as (_ & H & _). discriminate H.
        -- destruct H as (_ & [(_ & H & _)|(_ & H & _)]); discriminate H.
        -- destruct H as (_ & H & _). discriminate H.
        -- destruct H as (_ & [(H1 & H2 & H3)|[(h' & _ & H1 & _)|(_ & H1 & _)]]); try discriminate H1. injection H1 as <-.
           split; [lia|]. right. right. repeat split; assumption.
      * eapply chan_eq; [..|apply C, Hj]; cbn; try (by rewrite upd_ne by done); done.
Qed.

Lemma poll_inv K s : inv K s -> inv K (poll_step K s).
Proof.
  intros I. pose proof I as [C P A R Y O]. unfold poll_step. destruct (s_poll s) eqn:Ep; unfold phase in P; rewrite Ep in P.
  - constructor; cbn; try assumption.
  - destruct (decide (s_cnt s = K)) as [Ek|]; [|exact I]. destruct P as (P1 & P2 & P3). constructor; cbn; try assumption.
    split; [exact P1|]. split; [exact Ek|]. intros j Hj. assert (X : past 2 s j = 1).
    { apply (sum_max (past 2 s) 1 K); [|lia|exact Hj]. intros k _. unfold past. destruct (decide _); lia. }
    specialize (P3 j Hj). unfold past in X. destruct (decide _); lia.
  - destruct P as (P1 & P2 & P3). constructor; cbn; try assumption. done.
  - destruct P as (P1 & P2 & P3). constructor; cbn.
    + intros j Hj. eapply chan_eq; [..|apply C, Hj]; cbn; try done. rewrite calls_app. cbn. by rewrite app_nil_r.
    + split; [done|]. split; [|intros j Hj; by rewrite P3]. rewrite P2. rewrite (sum_ext (fun _ => 0)); [rewrite sum_const; lia|].
      intros j Hj. unfold past. cbn. rewrite P3 by done. by rewrite decide_False by lia.
    + exact A.
    + intros j Hj. inlog. rewrite (R j Hj). split; [intros [X|X]; [done|discriminate X]|by left].
    + intros _. inlog. by right.
    + apply ordered_snoc; [exact O|]. exact Logic.I.
  - exact I.
Qed.

Lemma cli_inv K i r s : 1 <= i <= K -> inv K s -> inv K (cli_step i r s).
Proof.
  intros Hi I. pose proof I as [C P A R Y O]. unfold cli_step. destruct (C i Hi) as (ps & Hps & H). cbv zeta in H. destruct (s_cli s i) as [| | |q] eqn:Ec.
  - constructor; cbn; try assumption. intros j Hj. destruct (decide (j = i)) as [->|Hn].
    + exists ps. split; [exact Hps|]. cbn. rewrite !upd_eq. destruct H as (H1 & H2 & H3 & H4). split; [exact H4|]. left. repeat split; assumption.
    + eapply chan_eq; [..|apply C, Hj]; cbn; try (by rewrite upd_ne by done); done.
  - destruct (s_rep s i) as [[|h]|] eqn:Er; try exact I. constructor; cbn; try assumption. intros j Hj. destruct (decide (j = i)) as [->|Hn].
    + exists ps. split; [exact Hps|]. cbn. rewrite !upd_eq. destruct H as (H1 & [(_ & _ & H)|(H2 & H3 & _)]); [congruence|]. repeat split; assumption.
    + eapply chan_eq; [..|apply C, Hj]; cbn; try (by rewrite upd_ne by done); done.
  - constructor; cbn; try assumption.
    + intros j Hj. destruct (decide (j = i)) as [->|Hn].
      * exists ps. split; [exact Hps|]. cbn. rewrite !upd_eq, calls_app. cbn. rewrite Nat.eqb_refl. destruct H as (H1 & H2 & H3 & H4). split; [exact H1|].
        left. rewrite H4. repeat split; assumption.
      * eapply chan_eq; [..|apply C, Hj]; cbn; try (by rewrite upd_ne by done); try done. rewrite calls_app. cbn.
        destruct (Nat.eqb_spec i j); [congruence|]. by rewrite app_nil_r.
    + intros j Hj. inlog. rewrite (R j Hj). split; [intros [X|X]; [done|discriminate X]|by left].
    + intros X. inlog. left. by apply Y.
    + apply ordered_snoc; [exact O|]. exact Logic.I.
  - destruct (s_rep s i) as [[|h]|] eqn:Er; try exact I. constructor; cbn; try assumption.
    + intros j Hj. destruct (decide (j = i)) as [->|Hn].
      * destruct H as (H1 & [(_ & H & _)|[(h' & H2 & H3 & H4 & H5)|(_ & _ & H & _)]]); try congruence. injection H4 as <-.
        exists (ps ++ [(q, h)]). split; [apply stdpp.list.Forall_app; split; [exact Hps|]; constructor; [exact H2|constructor]|].
        cbn. rewrite !upd_eq, calls_app. cbn. rewrite Nat.eqb_refl, H5, fin_snoc, <- app_assoc. repeat split; assumption.
      * eapply chan_eq; [..|apply C, Hj]; cbn; try (by rewrite upd_ne by done); try done. rewrite calls_app. cbn.
        destruct (Nat.eqb_spec i j); [congruence|]. by rewrite app_nil_r.
    + intros j Hj. inlog. rewrite (R j Hj). split; [intros [X|X]; [done|discriminate X]|by left].
    + intros X. inlog. left. by apply Y.
    + apply ordered_snoc; [exact O|]. exact Logic.I.
Qed.

Lemma step_inv K a s : inv K s -> inv K (step K K a s).
Proof.
  intros I. destruct a; cbn.
  - by apply poll_inv.
  - destruct (decide _); [by apply srv_inv|exact I].
  - destruct (decide _); [by apply cli_inv|exact I].
Qed.

Lemma run_inv K l : inv K (run K K l).
Proof.
  unfold run. cut (forall s, inv K s -> inv K (fold_left (fun s a => step K K a s) l s)); [intros H; apply H, init_inv|].
  induction l as [|a l IH]; intros s I; cbn; [exact I|]. apply IH. by apply step_inv.
Qed.

Lemma trace_inv K f n : inv K (trace K K f n).
Proof. induction n; cbn; [apply init_inv|by apply step_inv]. Qed.

Lemma fin_turn i ps l : Forall (fun x => dispatch x.1 = Some x.2) ps -> in_turn dispatch i l -> in_turn dispatch i (fin i ps ++ l).
Proof.
  induction ps as [|[r h] ps IH]; intros H Hl; [exact Hl|]. apply stdpp.list.Forall_cons in H as [H1 H2]. cbn. apply it_call; [exact H1|]. by apply IH.
Qed.

Lemma turn_inv K s i : inv K s -> 1 <= i <= K -> in_turn dispatch i (calls_of i (s_log s)).
Proof.
  intros I Hi. destruct (i_chan _ _ I i Hi) as (ps & Hps & H). cbv zeta in H. destruct (s_cli s i) as [| | |r].
  - destruct H as (_ & _ & _ & ->). rewrite <- (app_nil_r (fin i ps)). apply fin_turn; [done|constructor].
  - destruct H as (-> & _). rewrite <- (app_nil_r (fin i ps)). apply fin_turn; [done|constructor].
  - destruct H as (_ & _ & _ & ->). rewrite <- (app_nil_r (fin i ps)). apply fin_turn; [done|constructor].
  - destruct H as (_ & [(_ & _ & ->)|[(h & H & _ & _ & ->)|(_ & _ & _ & ->)]]); apply fin_turn; try done; by constructor.
Qed.

(** *** Progress *)
Inductive thread := TPoll | TSrv (i : nat) | TCli (i : nat).
Definition is_of (t : thread) (a : act) : Prop :=
  match t, a with TPoll, APoll => True | TSrv i, ASrv j => j = i | TCli i, ACli j _ => j = i | _, _ => False end.
Definition adv (K : nat) (t : thread) (s : st) : Prop :=
  match t with
  | TPoll => match s_poll s with PDcm | PReset | PSignal => True | PWait => s_cnt s = K | PLoop => False end
  | TSrv i => 1 <= i <= K /\ match s_srv s i with SNew | SArrive | SArrive2 => True | SReady => s_ready s = true | SAccept => s_req s i = Some MReg | SAll => s_cnt s = K | SServe => False end
  | TCli i => 1 <= i <= K /\ match s_cli s i with CNew => True | CReg => s_rep s i = Some RReg | _ => False end
  end.

Lemma total_srv K s s' i p : 1 <= i <= K -> s_poll s' = s_poll s -> s_cli s' = s_cli s -> s_srv s' = upd (s_srv s) i p ->
  total K s' + rank (s_srv s i) = total K s + rank p.
Proof.
  intros Hi Ep Ec Es. unfold total. rewrite Ep.
  pose proof (sum_upd (fun i => rank (s_srv s i) + crank (s_cli s i)) (fun i => rank (s_srv s' i) + crank (s_cli s' i)) i K Hi) as X.
  rewrite Ec, Es, upd_eq in X. specialize (X ltac:(intros j Hj; rewrite upd_ne by done; done)). rewrite Ec, Es. lia.
Qed.
Lemma total_cli K s s' i p : 1 <= i <= K -> s_poll s' = s_poll s -> s_srv s' = s_srv s -> s_cli s' = upd (s_cli s) i p ->
  total K s' + crank (s_cli s i) = total K s + crank p.
Proof.
  intros Hi Ep Ec Es. unfold total. rewrite Ep.
  pose proof (sum_upd (fun i => rank (s_srv s i) + crank (s_cli s i)) (fun i => rank (s_srv s' i) + crank (s_cli s' i)) i K Hi) as X.
  rewrite Ec, Es, upd_eq in X. specialize (X ltac:(intros j Hj; rewrite upd_ne by done; done)). rewrite Ec, Es. lia.
Qed.
Lemma total_same K s s' : s_poll s' = s_poll s -> s_srv s' = s_srv s -> s_cli s' = s_cli s -> total K s' = total K s.
Proof. unfold total. by intros -> -> ->. Qed.

Lemma reg_some : exists t, register_rpcs = Some t.
Proof. vm_compute. eexists. reflexivity. Qed.

(** A thread that can move on does so; nothing else goes back. *)
Lemma adv_step K t a s : adv K t s -> is_of t a -> total K s < total K (step K K a s).
Proof.
  intros H Ha. destruct t as [|i|i], a as [|j|j r]; try (destruct Ha; fail); cbn in Ha; subst; cbn in *.
  - unfold poll_step. destruct (s_poll s) eqn:Ep; try (destruct H; fail).
    + unfold total. cbn. rewrite Ep. cbn. lia.
    + rewrite decide_True by done. unfold total. cbn. rewrite Ep. cbn. lia.
    + unfold total. cbn. rewrite Ep. cbn. lia.
    + unfold total. cbn. rewrite Ep. cbn. lia.
  - destruct H as [Hi H]. rewrite decide_True by done. unfold srv_step. destruct (s_srv s i) eqn:Es; try (destruct H; fail).
    + destruct reg_some as [tb ->]. pose proof (total_srv K s (set_srv s i SArrive) i SArrive Hi eq_refl eq_refl eq_refl) as X. rewrite Es in X. cbn in X. lia.
    + pose proof (total_srv K s (set_cnt (set_srv s i SReady) (s_cnt s + 1)) i SReady Hi eq_refl eq_refl eq_refl) as X. rewrite Es in X. cbn in X. lia.
    + rewrite H. pose proof (total_srv K s (set_srv s i SAccept) i SAccept Hi eq_refl eq_refl eq_refl) as X. rewrite Es in X. cbn in X. lia.
    + rewrite H. pose proof (total_srv K s (say (set_rep (set_req (set_srv s i SArrive2) i None) i (Some RReg)) (EReg i)) i SArrive2 Hi eq_refl eq_refl eq_refl) as X. rewrite Es in X. cbn in X. lia.
    + pose proof (total_srv K s (set_cnt (set_srv s i SAll) (s_cnt s + 1)) i SAll Hi eq_refl eq_refl eq_refl) as X. rewrite Es in X. cbn in X. lia.
    + rewrite decide_True by done. pose proof (total_srv K s (set_srv s i SServe) i SServe Hi eq_refl eq_refl eq_refl) as X. rewrite Es in X. cbn in X. lia.
  - destruct H as [Hi H]. rewrite decide_True by done. unfold cli_step. destruct (s_cli s i) eqn:Es; try (destruct H; fail).
    + pose proof (total_cli K s (set_req (set_cli s i CReg) i (Some MReg)) i CReg Hi eq_refl eq_refl eq_refl) as X. rewrite Es in X. cbn in X. lia.
    + rewrite H. pose proof (total_cli K s (set_rep (set_cli s i CRun) i None) i CRun Hi eq_refl eq_refl eq_refl) as X. rewrite Es in X. cbn in X. lia.
Qed.

Lemma total_mono K a s : total K s <= total K (step K K a s).
Proof.
  destruct a as [|i|i r]; cbn.
  - destruct (s_poll s) eqn:Ep; unfold poll_step; rewrite Ep; try (unfold total; cbn; rewrite Ep; cbn; lia).
    destruct (decide _); [|done]. unfold total; cbn; rewrite Ep; cbn; lia.
  - destruct (decide _) as [Hi|]; [|done]. unfold srv_step. destruct (s_srv s i) eqn:Es.
    + destruct register_rpcs; [|done]. pose proof (total_srv K s (set_srv s i SArrive) i SArrive Hi eq_refl eq_refl eq_refl) as X. rewrite Es in X. cbn in X. lia.
    + pose proof (total_srv K s (set_cnt (set_srv s i SReady) (s_cnt s + 1)) i SReady Hi eq_refl eq_refl eq_refl) as X. rewrite Es in X. cbn in X. lia.
    + destruct (s_ready s); [|done]. pose proof (total_srv K s (set_srv s i SAccept) i SAccept Hi eq_refl eq_refl eq_refl) as X. rewrite Es in X. cbn in X. lia.
    + destruct (s_req s i) as [[|]|]; try done.
      pose proof (total_srv K s (say (set_rep (set_req (set_srv s i SArrive2) i None) i (Some RReg)) (EReg i)) i SArrive2 Hi eq_refl eq_refl eq_refl) as X. rewrite Es in X. cbn in X. lia.
    + pose proof (total_srv K s (set_cnt (set_srv s i SAll) (s_cnt s + 1)) i SAll Hi eq_refl eq_refl eq_refl) as X. rewrite Es in X. cbn in X. lia.
    + destruct (decide _); [|done]. pose proof (total_srv K s (set_srv s i SServe) i SServe Hi eq_refl eq_refl eq_refl) as X. rewrite Es in X. cbn in X. lia.
    + destruct (s_req s i) as [[|r]|]; try done. destruct (dispatch r); apply Nat.eq_le_incl; symmetry; apply total_same; done.
  - destruct (decide _) as [Hi|]; [|done]. unfold cli_step. destruct (s_cli s i) as [| | |q] eqn:Es.
    + pose proof (total_cli K s (set_req (set_cli s i CReg) i (Some MReg)) i CReg Hi eq_refl eq_refl eq_refl) as X. rewrite Es in X. cbn in X. lia.
    + destruct (s_rep s i) as [[|]|]; try done. pose proof (total_cli K s (set_rep (set_cli s i CRun) i None) i CRun Hi eq_refl eq_refl eq_refl) as X. rewrite Es in X. cbn in X. lia.
    + pose proof (total_cli K s (say (set_req (set_cli s i (CWait r)) i (Some (MCall r))) (ECall i r)) i (CWait r) Hi eq_refl eq_refl eq_refl) as X. rewrite Es in X. cbn in X. lia.
    + destruct (s_rep s i) as [[|h]|]; try done.
      pose proof (total_cli K s (say (set_rep (set_cli s i CRun) i None) (ERet i q h)) i CRun Hi eq_refl eq_refl eq_refl) as X. rewrite Es in X. cbn in X. lia.
Qed.

(** When the counter has the awaited value nobody changes it before the waiting thread has seen it. *)
Lemma cnt_wait K s i : inv K s -> 1 <= i <= K -> s_poll s = PWait -> s_cnt s = K -> s_srv s i = SReady /\ s_ready s = false.
Proof.
  intros I Hi Ep Ek. pose proof (i_phase _ _ I) as P. unfold phase in P. rewrite Ep in P. destruct P as (P1 & P2 & P3).
  assert (X : past 2 s i = 1). { apply (sum_max (past 2 s) 1 K); [|lia|exact Hi]. intros k _. unfold past. destruct (decide _); lia. }
  specialize (P3 i Hi). unfold past in X. destruct (decide _); [|lia]. split; [|exact P1]. destruct (s_srv s i); cbn in *; try lia; done.
Qed.
Lemma all5 K s i : inv K s -> 1 <= i <= K -> s_srv s i = SAll -> s_cnt s = K -> s_poll s = PLoop /\ forall j, 1 <= j <= K -> 5 <= rank (s_srv s j).
Proof.
  intros I Hi Es Ek. pose proof (i_phase _ _ I) as P. unfold phase in P.
  destruct (s_poll s); try (destruct P as (_ & _ & P); specialize (P i Hi); rewrite Es in P; cbn in P; lia).
  split; [done|]. destruct P as (_ & P2 & _). rewrite Ek in P2. intros j Hj. assert (X : past 5 s j = 1).
  { apply (sum_max (past 5 s) 1 K); [|lia|exact Hj]. intros k _. unfold past. destruct (decide _); lia. }
  unfold past in X. destruct (decide _); lia.
Qed.

Lemma srv_poll K j s : s_poll (srv_step K j s) = s_poll s.
Proof.
  unfold srv_step. destruct (s_srv s j).
  - by destruct register_rpcs.
  - done.
  - by destruct (s_ready s).
  - by destruct (s_req s j) as [[|]|].
  - done.
  - by destruct (decide _).
  - destruct (s_req s j) as [[|q]|]; [done| |done]. by destruct (dispatch q).
Qed.

Lemma srv_cli K j s : s_cli (srv_step K j s) = s_cli s.
Proof.
  unfold srv_step. destruct (s_srv s j).
  - by destruct register_rpcs.
  - done.
  - by destruct (s_ready s).
  - by destruct (s_req s j) as [[|]|].
  - done.
  - by destruct (decide _).
  - destruct (s_req s j) as [[|q]|]; [done| |done]. by destruct (dispatch q).
Qed.
Lemma srv_other K i j s : i <> j ->
  s_srv (srv_step K j s) i = s_srv s i /\ s_ready (srv_step K j s) = s_ready s /\ s_cli (srv_step K j s) i = s_cli s i /\
  s_req (srv_step K j s) i = s_req s i /\ s_rep (srv_step K j s) i = s_rep s i.
Proof.
  intros Hn. rewrite srv_cli. unfold srv_step. destruct (s_srv s j).
  - destruct register_rpcs; cbn; rewrite ?upd_ne by done; done.
  - cbn. rewrite upd_ne by done. done.
  - destruct (s_ready s) eqn:E; cbn; rewrite ?upd_ne by done; done.
  - destruct (s_req s j) as [[|]|]; cbn; rewrite ?upd_ne by done; done.
  - cbn. rewrite upd_ne by done. done.
  - destruct (decide _); cbn; rewrite ?upd_ne by done; done.
  - destruct (s_req s j) as [[|q]|]; [done| |done]. destruct (dispatch q); cbn; rewrite ?upd_ne by done; done.
Qed.

Lemma adv_keep K t a s : inv K s -> adv K t s -> ~ is_of t a -> adv K t (step K K a s).
Proof.
  intros I H Ha. destruct a as [|j|j r]; cbn.
  - (* poll *) destruct t as [|i|i]; cbn in *; [tauto| |].
    + destruct H as [Hi H]. split; [exact Hi|]. unfold poll_step. destruct (s_poll s) eqn:Ep; cbn; try exact H; [destruct (decide (s_cnt s = K)); exact H| |].
      * destruct (s_srv s i) eqn:Es; try exact H. destruct (all5 K s i I Hi Es H). congruence.
      * destruct (s_srv s i) eqn:Es; try exact H. done.
    + destruct H as [Hi H]. split; [exact Hi|]. unfold poll_step. destruct (s_poll s) eqn:Ep; cbn; try exact H. destruct (decide (s_cnt s = K)); exact H.
  - (* srv *) destruct (decide _) as [Hj|]; [|exact H]. destruct t as [|i|i]; cbn in *.
    + rewrite srv_poll. destruct (s_poll s) eqn:Ep; try exact H.
      destruct (cnt_wait K s j I Hj Ep H) as [E1 E2]. unfold srv_step. rewrite E1, E2. exact H.
    + destruct H as [Hi H]. split; [exact Hi|]. assert (Hn : i <> j) by congruence.
      destruct (s_srv s i) eqn:Ei.
      6: { destruct (all5 K s i I Hi Ei H) as [Ep ALL]. specialize (ALL j Hj). unfold srv_step.
           destruct (s_srv s j) eqn:Ej; cbn in ALL; try lia.
           - destruct (decide _); cbn; [rewrite upd_ne by done|]; rewrite Ei; exact H.
           - destruct (s_req s j) as [[|q]|]; [|destruct (dispatch q)|]; cbn; rewrite Ei; exact H. }
      all: destruct (srv_other K i j s Hn) as (O1 & O2 & O3 & O4 & O5); rewrite O1, Ei, ?O2, ?O4; exact H.
    + destruct H as [Hi H]. split; [exact Hi|]. pose proof (i_chan _ _ I i Hi) as (ps & _ & CH). cbv zeta in CH.
      destruct (decide (i = j)) as [<-|Hn].
      * rewrite srv_cli. destruct (s_cli s i) eqn:Ec; try exact H. unfold srv_step.
        assert (R : s_req s i = None) by (destruct CH as (_ & [(_ & _ & CH)|(_ & CH & _)]); [congruence|done]). rewrite R.
        destruct (s_srv s i).
        -- destruct register_rpcs; exact H.
        -- exact H.
        -- destruct (s_ready s); exact H.
        -- exact H.
        -- cbn. exact H.
        -- destruct (decide _); exact H.
        -- exact H.
      * destruct (srv_other K i j s Hn) as (O1 & O2 & O3 & O4 & O5). rewrite O3, O5. exact H.
  - (* cli *) destruct (decide _) as [Hj|]; [|exact H]. destruct t as [|i|i]; cbn in *.
    + unfold cli_step. destruct (s_cli s j); try (destruct (s_rep s j) as [[|h]|]); cbn; exact H.
    + destruct H as [Hi H]. split; [exact Hi|]. pose proof (i_chan _ _ I i Hi) as (ps & _ & CH). cbv zeta in CH.
      destruct (decide (i = j)) as [<-|Hn].
      * unfold cli_step. destruct (s_cli s i) eqn:Ec; try (destruct (s_rep s i) as [[|h]|]); cbn;
          destruct (s_srv s i) eqn:Es; try exact H; try (rewrite upd_eq); try done; cbn in CH; lia.
      * unfold cli_step. destruct (s_cli s j) eqn:Ec; try (destruct (s_rep s j) as [[|h]|]); cbn; rewrite ?(upd_ne _ j i) by done; exact H.
    + destruct H as [Hi H]. split; [exact Hi|]. assert (Hn : i <> j) by congruence.
      unfold cli_step. destruct (s_cli s j) eqn:Ec; try (destruct (s_rep s j) as [[|h]|]); cbn; rewrite ?(upd_ne _ j i) by done; exact H.
Qed.

Lemma rank_le p : rank p <= 6. Proof. destruct p; cbn; lia. Qed.
Lemma crank_le c : crank c <= 2. Proof. destruct c; cbn; lia. Qed.

(** Somebody can move on until everybody serves. *)
Lemma adv_exists K s : inv K s -> total K s < 4 + 8 * K -> exists t, adv K t s.
Proof.
  intros I L. pose proof (i_phase _ _ I) as P. unfold phase in P. unfold total in L.
  destruct (s_poll s) eqn:Ep; try (exists TPoll; cbn; rewrite Ep; exact Logic.I).
  - destruct P as (P1 & P2 & P3). destruct (decide (s_cnt s = K)) as [E|E]; [exists TPoll; cbn; rewrite Ep; exact E|].
    assert (X : sum (past 2 s) K <= 1 * K). { rewrite <- sum_const. apply sum_le. intros i _. unfold past. destruct (decide _); lia. }
    destruct (sum_lt_ex (past 2 s) 1 K) as (i & Hi & Hl); [intros i _; unfold past; destruct (decide _); lia|lia|].
    exists (TSrv i). cbn. split; [exact Hi|]. unfold past in Hl. destruct (decide _) as [?|Hr]; [lia|]. destruct (s_srv s i); cbn in Hr; try lia; exact Logic.I.
  - destruct P as (P1 & P2 & P3). cbn in L.
    destruct (sum_lt_ex (fun i => rank (s_srv s i) + crank (s_cli s i)) 8 K) as (i & Hi & Hl).
    { intros i _. pose proof (rank_le (s_srv s i)). pose proof (crank_le (s_cli s i)). lia. }
    { lia. }
    pose proof (i_chan _ _ I i Hi) as (ps & _ & CH). cbv zeta in CH.
    destruct (s_srv s i) eqn:Es.
    + exists (TSrv i). cbn. rewrite Es. done.
    + exists (TSrv i). cbn. rewrite Es. done.
    + exists (TSrv i). cbn. rewrite Es. done.
    + destruct (s_cli s i) eqn:Ec; cbn in CH.
      * exists (TCli i). cbn. rewrite Ec. done.
      * destruct CH as (_ & [(_ & CH & _)|(CH & _)]); [|lia]. exists (TSrv i). cbn. rewrite Es. done.
      * lia.
      * lia.
    + exists (TSrv i). cbn. rewrite Es. done.
    + destruct (decide (s_cnt s = K)) as [E|E]; [exists (TSrv i); cbn; rewrite Es; done|].
      assert (X : sum (past 5 s) K <= 1 * K). { rewrite <- sum_const. apply sum_le. intros j _. unfold past. destruct (decide _); lia. }
      destruct (sum_lt_ex (past 5 s) 1 K) as (j & Hj & Hlj); [intros j _; unfold past; destruct (decide _); lia|lia|].
      unfold past in Hlj. destruct (decide _) as [?|Hr]; [lia|]. specialize (P3 j Hj). pose proof (i_chan _ _ I j Hj) as (ps' & _ & CHj). cbv zeta in CHj.
      destruct (s_srv s j) eqn:Esj; cbn in Hr, P3; try lia.
      * exists (TSrv j). cbn. rewrite Esj. done.
      * destruct (s_cli s j) eqn:Ec; cbn in CHj.
        -- exists (TCli j). cbn. rewrite Ec. done.
        -- destruct CHj as (_ & [(_ & CHj & _)|(CHj & _)]); [|lia]. exists (TSrv j). cbn. rewrite Esj. done.
        -- lia.
        -- lia.
      * exists (TSrv j). cbn. rewrite Esj. done.
    + cbn in Hl. destruct (s_cli s i) eqn:Ec; cbn in Hl, CH; try lia.
      destruct CH as (_ & [(CH & _)|(_ & _ & CH)]); [lia|]. exists (TCli i). cbn. rewrite Ec. done.
Qed.

Definition serving (K : nat) (s : st) : Prop :=
  s_poll s = PLoop /\ forall i, 1 <= i <= K -> s_srv s i = SServe /\ s_cli s i <> CNew /\ s_cli s i <> CReg.

Lemma total_serving K s : total K s = 4 + 8 * K -> serving K s.
Proof.
  unfold total. intros E. pose proof (sum_le (fun i => rank (s_srv s i) + crank (s_cli s i)) (fun _ => 8) K) as L.
  rewrite sum_const in L. specialize (L ltac:(intros i _; pose proof (rank_le (s_srv s i)); pose proof (crank_le (s_cli s i)); lia)).
  assert (P : prank (s_poll s) <= 4) by (destruct (s_poll s); cbn; lia).
  split; [destruct (s_poll s); cbn in *; try lia; done|]. intros i Hi.
  assert (X : rank (s_srv s i) + crank (s_cli s i) = 8).
  { apply (sum_max (fun i => rank (s_srv s i) + crank (s_cli s i)) 8 K); [|lia|exact Hi]. intros j _. pose proof (rank_le (s_srv s j)); pose proof (crank_le (s_cli s j)); lia. }
  pose proof (rank_le (s_srv s i)). pose proof (crank_le (s_cli s i)).
  split; [destruct (s_srv s i); cbn in *; try lia; done|]. split; intros Ec; rewrite Ec in X; cbn in X; lia.
Qed.
Lemma serving_total K s : serving K s -> total K s = 4 + 8 * K.
Proof.
  intros [Ep H]. unfold total. rewrite Ep. cbn [prank]. rewrite (sum_ext (fun _ => 8)); [rewrite sum_const; lia|]. intros i Hi. destruct (H i Hi) as (-> & H1 & H2).
  destruct (s_cli s i); cbn; congruence.
Qed.
Lemma total_bound K s : total K s <= 4 + 8 * K.
Proof.
  unfold total. pose proof (sum_le (fun i => rank (s_srv s i) + crank (s_cli s i)) (fun _ => 8) K) as L. rewrite sum_const in L.
  specialize (L ltac:(intros i _; pose proof (rank_le (s_srv s i)); pose proof (crank_le (s_cli s i)); lia)).
  assert (P : prank (s_poll s) <= 4) by (destruct (s_poll s); cbn; lia). lia.
Qed.

Lemma trace_mono K f n m : n <= m -> total K (trace K K f n) <= total K (trace K K f m).
Proof. induction 1 as [|m _ IH]; [done|]. etransitivity; [exact IH|]. apply total_mono. Qed.

Lemma fair_next K f t n : fair K K f -> (match t with TPoll => True | TSrv i | TCli i => 1 <= i <= K end) -> exists m, n <= m /\ is_of t (f m).
Proof.
  intros (F1 & F2 & F3) Ht. destruct t as [|i|i].
  - destruct (F1 n) as (m & Hm & E). exists m. by rewrite E.
  - destruct (F2 i n Ht) as (m & Hm & E). exists m. by rewrite E.
  - destruct (F3 i n Ht) as (m & r & Hm & E). exists m. by rewrite E.
Qed.

Lemma is_of_dec t a : {is_of t a} + {~ is_of t a}.
Proof. destruct t as [|i|i], a as [|j|j r]; cbn; try (left; exact Logic.I); try (right; tauto); apply Nat.eq_dec. Qed.

(** The first time that thread [t] runs from [n] on. *)
Lemma adv_until K f t n d : is_of t (f (n + d)) -> adv K t (trace K K f n) -> exists m, n <= m /\ total K (trace K K f n) < total K (trace K K f (S m)).
Proof.
  revert n. induction d as [|d IH]; intros n Hd Ha.
  - rewrite Nat.add_0_r in Hd. exists n. split; [lia|]. cbn. by apply (adv_step K t).
  - destruct (is_of_dec t (f n)) as [Hn|Hn]; [exists n; split; [lia|]; cbn; by apply (adv_step K t)|].
    destruct (IH (S n)) as (m & Hm & Hl); [by rewrite <- Nat.add_succ_comm in Hd|cbn; apply adv_keep; [apply trace_inv|done|done]|].
    exists m. split; [lia|]. pose proof (trace_mono K f n (S n) ltac:(lia)). lia.
Qed.

Lemma starts K f : fair K K f -> exists n, forall m, n <= m -> serving K (trace K K f m).
Proof.
  intros F. cut (exists n, total K (trace K K f n) = 4 + 8 * K).
  { intros (n & E). exists n. intros m Hm. apply total_serving. pose proof (trace_mono K f n m Hm). pose proof (total_bound K (trace K K f m)). lia. }
  cut (forall d n, 4 + 8 * K - total K (trace K K f n) <= d -> exists m, total K (trace K K f m) = 4 + 8 * K); [intros H; by apply (H (4 + 8 * K - total K (trace K K f 0)) 0)|].
  induction d as [|d IH]; intros n Hd; pose proof (total_bound K (trace K K f n)) as B.
  - exists n. lia.
  - destruct (decide (total K (trace K K f n) = 4 + 8 * K)) as [E|E]; [by exists n|].
    destruct (adv_exists K (trace K K f n)) as [t Ht]; [apply trace_inv|lia|].
    destruct (fair_next K f t n F) as (m & Hm & Hof); [destruct t; [done|apply Ht|apply Ht]|].
    destruct (adv_until K f t n (m - n)) as (k & Hk & Hl); [by replace (n + (m - n)) with m by lia|done|].
    apply (IH (S k)). lia.
Qed.

(** *** Every call is answered *)
Lemma trace_log K f n m : n <= m -> exists l, s_log (trace K K f m) = s_log (trace K K f n) ++ l.
Proof.
  induction 1 as [|m _ [l IH]]; [exists []; by rewrite app_nil_r|]. cbn.
  assert (X : forall a s, exists l, s_log (step K K a s) = s_log s ++ l).
  { intros a s. destruct a as [|i|i r]; cbn.
    - unfold poll_step. destruct (s_poll s); try (destruct (decide _)); cbn; (eexists; reflexivity) || (exists []; by rewrite app_nil_r).
    - destruct (decide _); [|exists []; by rewrite app_nil_r]. unfold srv_step.
      destruct (s_srv s i); try (destruct register_rpcs); try (destruct (s_ready s)); try (destruct (decide _)); try (destruct (s_req s i) as [[|q]|]; [|destruct (dispatch q)|]); cbn;
        (exists []; by rewrite app_nil_r) || (eexists; reflexivity).
    - destruct (decide _); [|exists []; by rewrite app_nil_r]. unfold cli_step.
      destruct (s_cli s i); try (destruct (s_rep s i) as [[|h]|]); cbn; (exists []; by rewrite app_nil_r) || (eexists; reflexivity). }
  destruct (X (f m) (trace K K f m)) as [l' ->]. rewrite IH, <- app_assoc. by eexists.
Qed.

(** A client that waits goes on waiting until its reply is taken. *)
Lemma wait_step K a s i r : inv K s -> 1 <= i <= K -> s_cli s i = CWait r ->
  (s_cli (step K K a s) i = CWait r /\ (s_rep s i <> None -> s_rep (step K K a s) i = s_rep s i)) \/
  (exists h, dispatch r = Some h /\ s_log (step K K a s) = s_log s ++ [ERet i r h]).
Proof.
  intros I Hi Ec. pose proof (i_chan _ _ I i Hi) as (ps & _ & CH). cbv zeta in CH. rewrite Ec in CH. destruct a as [|j|j q]; cbn.
  - left. unfold poll_step. destruct (s_poll s); try (destruct (decide _)); cbn; done.
  - left. destruct (decide _) as [Hj|]; [|done]. destruct (decide (i = j)) as [<-|Hn].
    + assert (X : s_rep s i <> None -> s_req s i = None) by (destruct CH as (_ & [(C1 & C2 & _)|[(h & _ & C1 & _)|(_ & C1 & _)]]); [congruence|done|done]).
      unfold srv_step. destruct (s_srv s i); try (destruct register_rpcs); try (destruct (s_ready s)); try (destruct (decide _)); try (destruct (s_req s i) as [[|q]|]; [|destruct (dispatch q)|]); cbn;
        (split; [exact Ec|]); intros Z; try done; specialize (X Z); discriminate X.
    + unfold srv_step. destruct (s_srv s j); try (destruct register_rpcs); try (destruct (s_ready s)); try (destruct (decide _)); try (destruct (s_req s j) as [[|q]|]; [|destruct (dispatch q)|]); cbn;
        rewrite ?(upd_ne _ j i) by done; done.
  - destruct (decide _) as [Hj|]; [|left; done]. destruct (decide (i = j)) as [<-|Hn].
    + unfold cli_step. rewrite Ec. destruct (s_rep s i) as [[|h]|] eqn:Er; [left; rewrite Er; done| |left; rewrite Er; done].
      right. exists h. cbn. split; [|done]. destruct CH as (_ & [(_ & C2 & _)|[(h' & Hd & _ & C2 & _)|(_ & _ & C2 & _)]]); congruence.
    + left. unfold cli_step. destruct (s_cli s j); try (destruct (s_rep s j) as [[|h]|]); cbn; rewrite ?(upd_ne _ j i) by done; done.
Qed.

Definition back K f n i r : Prop := exists m h, n <= m /\ dispatch r = Some h /\ s_log (trace K K f (S m)) = s_log (trace K K f m) ++ [ERet i r h].

Lemma wait_until K f n d i r : 1 <= i <= K -> s_cli (trace K K f n) i = CWait r ->
  back K f n i r \/
  (s_cli (trace K K f (n + d)) i = CWait r /\ (s_rep (trace K K f n) i <> None -> s_rep (trace K K f (n + d)) i <> None)).
Proof.
  intros Hi Ec. induction d as [|d IH]; [rewrite Nat.add_0_r; right; done|]. destruct IH as [IH|(IH1 & IH2)]; [by left|].
  rewrite Nat.add_succ_r. cbn. destruct (wait_step K (f (n + d)) (trace K K f (n + d)) i r (trace_inv K f _) Hi IH1) as [(W1 & W2)|(h & Hd & W)].
  - right. split; [exact W1|]. intros Z. specialize (IH2 Z). rewrite W2; done.
  - left. exists (n + d), h. split; [lia|]. split; [exact Hd|]. exact W.
Qed.

Lemma back_le K f n m i r : n <= m -> back K f m i r -> back K f n i r.
Proof. intros L (k & h & H1 & H2). exists k, h. split; [lia|done]. Qed.

Lemma answered_back K f n i r h : fair K K f -> 1 <= i <= K -> s_cli (trace K K f n) i = CWait r -> dispatch r = Some h -> back K f n i r.
Proof.
  intros F Hi Ec Hd. destruct (starts K f F) as [n0 Hs].
  destruct (wait_until K f n (n0 - n) i r Hi Ec) as [W|(Ec1 & _)]; [exact W|].
  destruct F as (F1 & F2 & F3). destruct (F2 i (n + (n0 - n)) Hi) as (m1 & Hm1 & E1).
  destruct (wait_until K f (n + (n0 - n)) (m1 - (n + (n0 - n))) i r Hi Ec1) as [W|(Ec2 & _)]; [eapply back_le; [|exact W]; lia|].
  replace (n + (n0 - n) + (m1 - (n + (n0 - n)))) with m1 in Ec2 by lia.
  destruct (Hs m1 ltac:(lia)) as [_ Hsrv]. destruct (Hsrv i Hi) as [Es _].
  (* after the server's turn there is a reply *)
  assert (X : s_cli (trace K K f (S m1)) i = CWait r /\ s_rep (trace K K f (S m1)) i <> None).
  { pose proof (i_chan _ _ (trace_inv K f m1) i Hi) as (ps & _ & CH). cbv zeta in CH. rewrite Ec2 in CH. cbn. rewrite E1. cbn. rewrite decide_True by done.
    unfold srv_step. rewrite Es. destruct CH as (_ & [(C1 & C2 & _)|[(h' & _ & C1 & C2 & _)|(C0 & _)]]); [| |congruence].
    - rewrite C1, Hd. cbn. rewrite upd_eq. done.
    - rewrite C1, C2. done. }
  destruct X as [Ec3 Er3]. destruct (F3 i (S m1) Hi) as (m2 & q & Hm2 & E2).
  destruct (wait_until K f (S m1) (m2 - S m1) i r Hi Ec3) as [W|(Ec4 & Er4)]; [eapply back_le; [|exact W]; lia|].
  replace (S m1 + (m2 - S m1)) with m2 in Ec4, Er4 by lia. specialize (Er4 Er3).
  exists m2, h. split; [lia|]. split; [exact Hd|]. cbn. rewrite E2. cbn. rewrite decide_True by done. unfold cli_step. rewrite Ec4.
  pose proof (i_chan _ _ (trace_inv K f m2) i Hi) as (ps & _ & CH). cbv zeta in CH. rewrite Ec4 in CH.
  destruct CH as (_ & [(C1 & C2 & _)|[(h' & Hd' & C1 & C2 & _)|(_ & _ & C2 & _)]]); try congruence.
  rewrite C2. cbn. replace h with h' by congruence. done.
Qed.

Lemma answered K f n i r h : fair K K f -> 1 <= i <= K -> s_cli (trace K K f n) i = CWait r -> dispatch r = Some h ->
  exists m l, n <= m /\ s_log (trace K K f m) = s_log (trace K K f n) ++ l ++ [ERet i r h].
Proof.
  intros F Hi Ec Hd. destruct (answered_back K f n i r h F Hi Ec Hd) as (m & h' & Hm & Hd' & E).
  destruct (trace_log K f n m Hm) as [l El]. exists (S m), l. split; [lia|]. rewrite E, El, <- app_assoc. by replace h with h' by congruence.
Qed.
