(** C24, C25: process ids and core assignment; C26: frames registered with a process. *)
From Verif Require Import Base NodeModel.

(** ** Specification: what a history of calls and responses means, without looking at the
    replica. *)

(** The process ids in use after a history. *)
Definition in_use (h : list (kop * res kret)) : nat -> Prop :=
  foldl (fun U '(op, r) =>
    match op, r with
    | KAllocPid, Ok (RPid p) => fun q => q = p \/ U q
    | KFreePid p, Ok _ => fun q => q <> p /\ U q
    | _, _ => U
    end) (fun _ => False) h.

(** Owner and entry point of each core after a history. *)
Definition owner (h : list (kop * res kret)) : N -> option (nat * N) :=
  foldl (fun O '(op, r) =>
    match op, r with
    | KAllocCore p (Some g) e, Ok _ => fun x => if (x =? g)%N then Some (p, e) else O x
    | KReleaseCore p g, Ok _ => fun x => if (x =? g)%N then None else O x
    | _, _ => O
    end) (fun _ => None) h.

Definition ci_pair (c : core_info) : nat * N := (ci_pid c, ci_entry c).

(** ** Proofs *)

Lemma first_free_spec ps i fuel :
  match first_free ps i fuel with
  | Some k => i <= k < i + fuel /\ k ∉ ps /\ forall j, i <= j < k -> j ∈ ps
  | None => forall j, i <= j < i + fuel -> j ∈ ps
  end.
Proof.
  revert i. induction fuel as [|fuel IH]; intros i; simpl; [lia|].
  destruct (decide (i ∈ ps)) as [Hi|Hi].
  - specialize (IH (S i)). destruct (first_free ps (S i) fuel) as [k|].
    + destruct IH as (?&?&IH). split; [lia|]. split; [done|]. intros j Hj.
      destruct (decide (j = i)) as [->|]; [done|]. apply IH. lia.
    + intros j Hj. destruct (decide (j = i)) as [->|]; [done|]. apply IH. lia.
  - split; [lia|]. split; [done|]. lia.
Qed.

Local Arguments first_free : simpl never.

Definition kn_inv (h : list (kop * res kret)) (s : knode) : Prop :=
  (forall p, p ∈ kn_procs s <-> in_use h p) /\
  (forall g, ci_pair <$> (kn_sched s !! g) = owner h g).

Lemma in_use_snoc h e : in_use (h ++ [e]) =
  (let '(op, r) := e in
    match op, r with
    | KAllocPid, Ok (RPid p) => fun q => q = p \/ in_use h q
    | KFreePid p, Ok _ => fun q => q <> p /\ in_use h q
    | _, _ => in_use h
    end).
Proof. unfold in_use. rewrite foldl_app. done. Qed.

Lemma owner_snoc h e : owner (h ++ [e]) =
  (let '(op, r) := e in
    match op, r with
    | KAllocCore p (Some g) e, Ok _ => fun x => if (x =? g)%N then Some (p, e) else owner h x
    | KReleaseCore p g, Ok _ => fun x => if (x =? g)%N then None else owner h x
    | _, _ => owner h
    end).
Proof. unfold owner. rewrite foldl_app. done. Qed.

Lemma kn_inv_step rs oom h s op s' r :
  kn_inv h s -> kn_step rs oom s op = (s', r) -> kn_inv (h ++ [(op, r)]) s'.
Proof.
  intros [Hp Ho] Hs. unfold kn_inv. rewrite in_use_snoc, owner_snoc.
  destruct op as [|pid|pid [g|] e|pid g]; simpl in Hs.
  - pose proof (first_free_spec (kn_procs s) 0 MAX_PROCESSES) as Hf.
    destruct (first_free (kn_procs s) 0 MAX_PROCESSES) as [k|]; [|by simplify_eq].
    destruct oom; simplify_eq; [done|]. simpl. split; [|done].
    intros p. rewrite elem_of_union, elem_of_singleton, Hp. done.
  - destruct (decide _); simplify_eq; [|done]. simpl. split; [|done].
    intros p. rewrite elem_of_difference, elem_of_singleton, Hp. naive_solver.
  - destruct (_ && _); simplify_eq; [done|].
    destruct (kn_sched s !! g) as [c|] eqn:E; simplify_eq; [done|].
    destruct oom; simplify_eq; [done|]. simpl. split; [done|].
    intros x. destruct (N.eqb_spec x g) as [->|Hne].
    + by rewrite lookup_insert.
    + rewrite lookup_insert_ne by done. apply Ho.
  - by simplify_eq.
  - destruct (_ && _); simplify_eq; [done|].
    destruct (kn_sched s !! g) as [c|] eqn:E; simplify_eq; [|done].
    destruct (decide _); simplify_eq; [|done]. simpl. split; [done|].
    intros x. destruct (N.eqb_spec x g) as [->|Hne].
    + by rewrite lookup_delete.
    + rewrite lookup_delete_ne by done. apply Ho.
Qed.

Lemma kn_inv_run rs ops : forall h s s' l,
  kn_inv h s -> kn_run rs s ops = (s', l) -> kn_inv (h ++ l) s'.
Proof.
  induction ops as [|[oom op] ops IH]; intros h s s' l Hi Hr; simpl in Hr.
  { simplify_eq. by rewrite app_nil_r. }
  destruct (kn_step rs oom s op) as [s1 r] eqn:E.
  destruct (kn_run rs s1 ops) as [s2 l2] eqn:E2. simplify_eq.
  replace (h ++ (op, r) :: l2) with ((h ++ [(op, r)]) ++ l2) by (by rewrite <- app_assoc).
  eapply IH; [|done]. by eapply kn_inv_step.
Qed.

Lemma kn_inv_reach rs ops s h : kn_run rs kn_init ops = (s, h) -> kn_inv h s.
Proof.
  intros H. eapply (kn_inv_run _ _ [] kn_init) in H; [done|].
  split; [intros p; simpl; set_solver|]. intros g. simpl. by rewrite lookup_empty.
Qed.

(** C24: after any history, with any pattern of memory exhaustion, an allocation returns
    the smallest process id below 12 that is not in use; ... *)
Theorem C24_pid_allocation rs ops s h oom :
  kn_run rs kn_init ops = (s, h) ->
  match (kn_step rs oom s KAllocPid).2 with
  | Ok (RPid p) => p < 12 /\ ~ in_use h p /\ forall q, q < p -> in_use h q
  | Ok _ => False
  | Err OutOfPids => forall q, q < 12 -> in_use h q
  | Err e => e = OutOfMemory /\ oom = true
  | Panic => False
  end.
Proof.
  intros [Hp _]%kn_inv_reach. simpl.
  pose proof (first_free_spec (kn_procs s) 0 MAX_PROCESSES) as Hf.
  destruct (first_free (kn_procs s) 0 MAX_PROCESSES) as [k|].
  - destruct oom; simpl; [done|]. destruct Hf as (Hk&Hn&Hf). unfold MAX_PROCESSES in Hk.
    split; [lia|]. split; [by rewrite <- Hp|]. intros q Hq. apply Hp, Hf. lia.
  - simpl. intros q Hq. apply Hp, Hf. unfold MAX_PROCESSES. lia.
Qed.

(** ... it fails for lack of ids exactly when all twelve are in use; ... *)
Theorem C24_out_of_pids_iff rs ops s h :
  kn_run rs kn_init ops = (s, h) ->
  (kn_step rs false s KAllocPid).2 = Err OutOfPids <-> (forall q, q < 12 -> in_use h q).
Proof.
  intros H. pose proof (C24_pid_allocation rs ops s h false H) as Hc.
  split.
  - intros E. by rewrite E in Hc.
  - intros Hall. destruct (kn_step rs false s KAllocPid).2 as [[]|e|]; try done.
    + destruct Hc as (Hlt&Hn&_). by destruct Hn; apply Hall.
    + destruct e; try done; by destruct Hc.
Qed.

(** ... and an id is freed exactly when it is in use; a refused request changes nothing. *)
Theorem C24_free_pid rs ops s h oom p :
  kn_run rs kn_init ops = (s, h) ->
  let '(s', r) := kn_step rs oom s (KFreePid p) in
  (in_use h p -> r = Ok RPidReturned) /\
  (~ in_use h p -> r = Err NoProcessFoundForPid /\ s' = s).
Proof.
  intros [Hp _]%kn_inv_reach. simpl.
  destruct (decide (p ∈ kn_procs s)) as [Hin|Hin]; rewrite Hp in Hin; naive_solver.
Qed.

(** Ids in use are pairwise distinct along the history: an id handed out by two
    allocations was freed in between. *)
Theorem C24_reuse_only_after_free rs ops s h1 h2 h3 p :
  kn_run rs kn_init ops = (s, h1 ++ (KAllocPid, Ok (RPid p)) :: h2 ++ (KAllocPid, Ok (RPid p)) :: h3) ->
  exists r, (KFreePid p, Ok r) ∈ h2.
Proof.
  intros Hrun.
  assert (forall ops s s' h a b, kn_inv h s -> kn_run rs s ops = (s', a ++ (KAllocPid, Ok (RPid p)) :: b) ->
            ~ in_use (h ++ a) p) as Hfresh.
  { clear. induction ops as [|[oom op] ops IH]; intros s s' h a b Hi Hr; simpl in Hr.
    { destruct a; simplify_eq. }
    destruct (kn_step rs oom s op) as [s1 r] eqn:E.
    destruct (kn_run rs s1 ops) as [s2 l2] eqn:E2. destruct a as [|e a].
    - simpl in Hr. simplify_eq. rewrite app_nil_r. simpl in E.
      pose proof (first_free_spec (kn_procs s) 0 MAX_PROCESSES) as Hf.
      destruct (first_free (kn_procs s) 0 MAX_PROCESSES) as [k|]; [|by simplify_eq].
      destruct oom; simplify_eq. destruct Hf as (_&Hn&_). by rewrite <- (proj1 Hi).
    - simpl in Hr. simplify_eq.
      replace (h ++ (op, r) :: a) with ((h ++ [(op, r)]) ++ a) by (by rewrite <- app_assoc).
      eapply IH; [|done]. by eapply kn_inv_step. }
  assert (forall l, in_use l p -> forall h, (forall r, (KFreePid p, Ok r) ∉ h) -> in_use (l ++ h) p) as Hkeep.
  { intros l Hl h. revert l Hl. induction h as [|e h IH]; intros l Hl Hno; [by rewrite app_nil_r|].
    replace (l ++ e :: h) with ((l ++ [e]) ++ h) by (by rewrite <- app_assoc).
    apply IH; [|intros r Hr; apply (Hno r); by right].
    rewrite in_use_snoc. destruct e as [[] [[]| |]]; simpl; try done; try (by right);
      (split; [|done]; intros ->; eapply Hno; left). }
  specialize (Hfresh ops kn_init s [] (h1 ++ (KAllocPid, Ok (RPid p)) :: h2) h3).
  set (isf := fun e : kop * res kret => match e with (KFreePid q, Ok _) => Nat.eqb q p | _ => false end).
  destruct (decide (Exists (fun e => isf e = true) h2)) as [He|He].
  { apply Exists_exists in He as ([[] [r| |]]&Hin&He); try done.
    apply Nat.eqb_eq in He. subst. eauto. }
  exfalso. apply Hfresh.
  - split; [intros q; simpl; set_solver|]. intros g. simpl. by rewrite lookup_empty.
  - by rewrite <- app_assoc.
  - simpl. replace (h1 ++ (KAllocPid, Ok (RPid p)) :: h2) with ((h1 ++ [(KAllocPid, Ok (RPid p))]) ++ h2)
      by (by rewrite <- app_assoc).
    apply Hkeep; [rewrite in_use_snoc; by left|]. intros r Hr. apply He, Exists_exists.
    eexists. split; [exact Hr|]. simpl. apply Nat.eqb_refl.
Qed.

(** C25: queries report the owner and entry point according to the history. *)
Theorem C25_current_owner rs ops s h g :
  kn_run rs kn_init ops = (s, h) ->
  match kn_current s g with
  | Ok c => owner h g = Some (ci_pid c, ci_entry c)
  | Err e => e = NoExecutorForCore /\ owner h g = None
  | Panic => False
  end.
Proof.
  intros [_ Ho]%kn_inv_reach. unfold kn_current. specialize (Ho g).
  destruct (kn_sched s !! g); simpl in *; [|done]. by rewrite <- Ho.
Qed.

(** Allocating a core succeeds exactly when it is free (and there is memory); an assigned
    core is refused and nothing changes. *)
Theorem C25_allocate_core rs ops s h oom p g e :
  kn_run rs kn_init ops = (s, h) -> (rs = true \/ (g < 192)%N) ->
  let '(s', r) := kn_step rs oom s (KAllocCore p (Some g) e) in
  (owner h g <> None -> r = Err CoreAlreadyAllocated /\ s' = s) /\
  (owner h g = None -> oom = false -> r = Ok (RCore g)) /\
  (owner h g = None -> oom = true -> r = Err OutOfMemory /\ s' = s).
Proof.
  intros [_ Ho]%kn_inv_reach Hg. simpl. specialize (Ho g).
  assert (negb rs && negb (g <? MAX_CORES)%N = false) as ->.
  { destruct Hg as [->|Hg]; [done|]. apply N.ltb_lt in Hg. unfold MAX_CORES. rewrite Hg. by destruct rs. }
  destruct (kn_sched s !! g) eqn:E; simpl in *; rewrite <- Ho; [done|].
  destruct oom; split; try done; split; done.
Qed.

(** Releasing succeeds exactly for the owner, and frees exactly that core. *)
Theorem C25_release_core rs ops s h oom p g :
  kn_run rs kn_init ops = (s, h) -> (rs = true \/ (g < 192)%N) ->
  let '(s', r) := kn_step rs oom s (KReleaseCore p g) in
  (r = Ok RCoreReleased <-> exists e, owner h g = Some (p, e)) /\
  (r = Ok RCoreReleased -> kn_current s' g = Err NoExecutorForCore /\
     (forall g', g' <> g -> kn_current s' g' = kn_current s g')) /\
  (r <> Ok RCoreReleased -> s' = s /\
     r = Err (if owner h g then CoreAllocatedToDifferentProcess else CoreNotAllocated)).
Proof.
  intros [_ Ho]%kn_inv_reach Hg. simpl. specialize (Ho g).
  assert (negb rs && negb (g <? MAX_CORES)%N = false) as ->.
  { destruct Hg as [->|Hg]; [done|]. apply N.ltb_lt in Hg. unfold MAX_CORES. rewrite Hg. by destruct rs. }
  destruct (kn_sched s !! g) as [c|] eqn:E; simpl in *; rewrite <- Ho.
  - destruct (decide (ci_pid c = p)) as [<-|Hne].
    + split; [split; [intros _; eexists; reflexivity|done]|]. split; [|done]. intros _.
      unfold kn_current. simpl. rewrite lookup_delete. split; [done|].
      intros g' Hg'. by rewrite lookup_delete_ne.
    + split; [split; [done|]|done]. intros [e [=]]. done.
  - split; [split; [done|by intros [? ?]]|]. done.
Qed.

(** At most one owner: follows from [owner] being a function of the core; restated on the
    history: between two successful allocations of the same core there is a successful
    release, made by the first owner. *)
Theorem C25_reallocated_only_after_release rs ops s h1 h2 h3 p q g e e' :
  kn_run rs kn_init ops =
    (s, h1 ++ (KAllocCore p (Some g) e, Ok (RCore g)) :: h2 ++ (KAllocCore q (Some g) e', Ok (RCore g)) :: h3) ->
  exists r, (KReleaseCore p g, Ok r) ∈ h2.
Proof.
  intros Hrun.
  (* the responses at a position are those of the state reached there *)
  assert (forall ops s s' h a op r b, kn_inv h s -> kn_run rs s ops = (s', a ++ (op, r) :: b) ->
            exists s1 oom, kn_inv (h ++ a) s1 /\ (kn_step rs oom s1 op).2 = r) as Hat.
  { clear. induction ops as [|[oom op'] ops IH]; intros s s' h a op r b Hi Hr; simpl in Hr.
    { destruct a; simplify_eq. }
    destruct (kn_step rs oom s op') as [s1 r1] eqn:E.
    destruct (kn_run rs s1 ops) as [s2 l2] eqn:E2. destruct a as [|x a]; simpl in Hr; simplify_eq.
    - exists s, oom. rewrite app_nil_r. split; [done|]. by rewrite E.
    - replace (h ++ (op', r1) :: a) with ((h ++ [(op', r1)]) ++ a) by (by rewrite <- app_assoc).
      eapply IH; [|done]. by eapply kn_inv_step. }
  assert (kn_inv [] kn_init) as Hi0.
  { split; [intros x; simpl; set_solver|]. intros x. simpl. by rewrite lookup_empty. }
  (* whoever owns g keeps it unless released by that owner *)
  assert (forall h2 l, owner l g = Some (p, e) ->
            (forall a op r b, h2 = a ++ (op, r) :: b ->
               exists s1 oom, kn_inv (l ++ a) s1 /\ (kn_step rs oom s1 op).2 = r) ->
            (exists r, (KReleaseCore p g, Ok r) ∈ h2) \/ owner (l ++ h2) g = Some (p, e)) as Hkeep.
  { clear. induction h2 as [|[op r] h2 IH]; intros l Hl Hst; [right; by rewrite app_nil_r|].
    destruct (Hst [] op r h2 eq_refl) as (s1&oom&Hi&Hr). rewrite app_nil_r in Hi.
    assert ((exists r' : kret, (KReleaseCore p g, Ok r') ∈ [(op, r)]) \/ owner (l ++ [(op, r)]) g = Some (p, e)) as [He|He].
    { rewrite owner_snoc. destruct Hi as [_ Ho]. specialize (Ho g). rewrite Hl in Ho.
      destruct (kn_sched s1 !! g) as [c|] eqn:Ec; [|done]. simpl in Ho.
      assert (ci_pid c = p) as Hcp by (unfold ci_pair in Ho; congruence).
      destruct op as [|?|p' [g'|] e''|p' g']; try (by right).
      - destruct r as [rr| |]; try (by right). simpl in Hr.
        destruct (N.eqb_spec g g') as [<-|]; [|by right].
        rewrite Ec in Hr. by destruct (_ && _).
      - destruct r as [rr| |]; try (by right). simpl in Hr.
        destruct (N.eqb_spec g g') as [<-|]; [|by right].
        rewrite Ec in Hr. destruct (_ && _); [done|]. destruct (decide (ci_pid c = p')); [|done].
        left. simplify_eq. eexists. left. }
    - left. destruct He as [r' Hr']. exists r'. apply elem_of_list_singleton in Hr'. rewrite Hr'. left.
    - destruct (IH (l ++ [(op, r)]) He) as [[r' Hr']|Hr'].
      + intros a op' r' b ->. destruct (Hst ((op, r) :: a) op' r' b eq_refl) as (s2&oom2&?&?).
        exists s2, oom2. by rewrite <- app_assoc.
      + left. exists r'. by right.
      + right. by rewrite <- app_assoc in Hr'. }
  destruct (Hkeep h2 (h1 ++ [(KAllocCore p (Some g) e, Ok (RCore g))])) as [?|Hown]; [..|done|].
  - rewrite owner_snoc. by rewrite N.eqb_refl.
  - intros a op r b ->.
    destruct (Hat ops kn_init s [] (h1 ++ (KAllocCore p (Some g) e, Ok (RCore g)) :: a) op r
                (b ++ (KAllocCore q (Some g) e', Ok (RCore g)) :: h3) Hi0) as (s1&oom&?&?).
    + rewrite Hrun. f_equal. rewrite <- app_assoc. simpl. by rewrite <- app_assoc.
    + exists s1, oom. by rewrite <- app_assoc.
  - exfalso.
    destruct (Hat ops kn_init s [] (h1 ++ (KAllocCore p (Some g) e, Ok (RCore g)) :: h2)
                (KAllocCore q (Some g) e') (Ok (RCore g)) h3 Hi0) as (s1&oom&[_ Ho]&Hr).
    { rewrite Hrun. f_equal. by rewrite <- app_assoc. }
    rewrite <- app_assoc in Hown. simpl in Hown. simpl in Ho. specialize (Ho g).
    rewrite Hown in Ho. simpl in Hr. destruct (kn_sched s1 !! g); [|done].
    by destruct (_ && _).
Qed.

(** Destroying a process does not give back its cores: the next process that gets the
    same id owns them. *)
Theorem C25_freed_process_keeps_core_refuted :
  exists ops s h, kn_run false kn_init ops = (s, h) /\
    ~ in_use h 0 /\ owner h 5 = Some (0, 4096%N).
Proof.
  exists [(false, KAllocPid); (false, KAllocCore 0 (Some 5%N) 4096); (false, KFreePid 0)].
  eexists _, _. split; [vm_compute; reflexivity|]. split; [|done].
  vm_compute. naive_solver.
Qed.

(** A core can be assigned to a process id that was never allocated. *)
Theorem C25_unknown_pid_gets_core_refuted :
  exists s h, kn_run false kn_init [(false, KAllocCore 7 (Some 5%N) 4096)] = (s, h) /\
    ~ in_use h 7 /\ owner h 5 = Some (7, 4096%N).
Proof. eexists _, _. split; [vm_compute; reflexivity|]. split; [|done]. intros H. exact H. Qed.

(** Replicas may diverge when memory runs out on one of them: the same log gives different
    answers and states. *)
Theorem C25_replicas_diverge_on_oom_refuted :
  exists ops1 ops2, map snd ops1 = map snd ops2 /\
    (kn_run false kn_init ops1).1 <> (kn_run false kn_init ops2).1.
Proof.
  exists [(false, KAllocPid)], [(true, KAllocPid)]. split; [done|].
  intros H. assert (0 ∈ kn_procs (kn_run false kn_init [(false, KAllocPid)]).1) as H0
    by (vm_compute; done).
  rewrite H in H0. vm_compute in H0. done.
Qed.

Example C24_C25_hyps_met :
  exists s, kn_run false kn_init
    [(false, KAllocPid); (false, KAllocPid); (false, KFreePid 0); (false, KAllocPid);
     (false, KAllocCore 0 (Some 3%N) 77); (false, KAllocCore 1 (Some 3%N) 78);
     (false, KReleaseCore 1 3); (false, KReleaseCore 0 3); (false, KAllocCore 1 (Some 3%N) 78)] =
    (s, [(KAllocPid, Ok (RPid 0)); (KAllocPid, Ok (RPid 1)); (KFreePid 0, Ok RPidReturned);
         (KAllocPid, Ok (RPid 0)); (KAllocCore 0 (Some 3%N) 77, Ok (RCore 3));
         (KAllocCore 1 (Some 3%N) 78, Err CoreAlreadyAllocated);
         (KReleaseCore 1 3, Err CoreAllocatedToDifferentProcess);
         (KReleaseCore 0 3, Ok RCoreReleased); (KAllocCore 1 (Some 3%N) 78, Ok (RCore 3))]).
Proof. eexists. vm_compute. reflexivity. Qed.

(** ** C26: frames *)

(** The frames registered and their number of live mappings, from the history alone. *)
Definition registered (h : list (pfop * res pfret)) : gmap nat (pframe * nat) :=
  foldl (fun m '(op, r) =>
    match op, r with
    | PAdd f, Ok (PId i) => <[i := (f, 0)]> m
    | PMap i, Ok _ => match m !! i with Some (f, n) => <[i := (f, S n)]> m | None => m end
    | PUnmap pa, Ok _ => (fun '(f, n) => if (pf_base f =? pa)%N then (f, Nat.pred n) else (f, n)) <$> m
    | PDealloc i, Ok _ => delete i m
    | _, _ => m
    end) ∅ h.

(** No frame is registered while another one with the same physical address is. *)
Definition bases_distinct (m : gmap nat (pframe * nat)) : Prop :=
  forall i j f g n k, m !! i = Some (f, n) -> m !! j = Some (g, k) -> pf_base f = pf_base g -> i = j.

(** Histories in which every registered frame is new. *)
Fixpoint fresh_adds (h : list (pfop * res pfret)) (ops : list pfop) (fs : list (option pframe * nat)) : Prop :=
  match ops with
  | [] => True
  | op :: ops =>
      match op with
      | PAdd f => forall i g n, registered h !! i = Some (g, n) -> pf_base g <> pf_base f
      | _ => True
      end /\ fresh_adds (h ++ [(op, (pfs_step fs op).2)]) ops (pfs_step fs op).1
  end.

Definition pf_inv (n : nat) (h : list (pfop * res pfret)) (fs : list (option pframe * nat)) : Prop :=
  length fs = n /\
  (forall i e, fs !! i = Some e -> registered h !! i =
     match e with (Some f, k) => Some (f, k) | (None, _) => None end) /\
  (forall i k, fs !! i = Some (None, k) -> k = 0) /\
  (forall i e, registered h !! i = Some e -> i < n) /\
  bases_distinct (registered h).

Lemma registered_snoc h op r : registered (h ++ [(op, r)]) =
    match op, r with
    | PAdd f, Ok (PId i) => <[i := (f, 0)]> (registered h)
    | PMap i, Ok _ => match registered h !! i with Some (f, n) => <[i := (f, S n)]> (registered h) | None => registered h end
    | PUnmap pa, Ok _ => (fun '(f, n) => if (pf_base f =? pa)%N then (f, Nat.pred n) else (f, n)) <$> (registered h)
    | PDealloc i, Ok _ => delete i (registered h)
    | _, _ => registered h
    end.
Proof. unfold registered. rewrite foldl_app. done. Qed.

Lemma pfs_free_spec fs :
  match pfs_free fs with
  | Some i => (exists k, fs !! i = Some (None, k)) /\ forall j, j < i -> exists f k, fs !! j = Some (Some f, k)
  | None => forall j e, fs !! j = Some e -> exists f k, e = (Some f, k)
  end.
Proof.
  induction fs as [|[[f|] k] fs IH]; simpl; [done|..].
  - destruct (pfs_free fs) as [i|]; simpl.
    + destruct IH as [IH1 IH2]. split; [done|]. intros [|j] Hj; [eauto|]. simpl. apply IH2. lia.
    + intros [|j] e; simpl; [intros [= <-]; eauto|]. apply IH.
  - split; [eauto|]. intros j. lia.
Qed.

Lemma pfs_remove_spec fs pa :
  match pfs_remove_mapping fs pa with
  | (fs', Ok _) => exists i f k, fs !! i = Some (Some f, S k) /\ pf_base f = pa /\
      fs' = <[i := (Some f, k)]> fs /\
      (forall j g l, j < i -> fs !! j = Some (Some g, l) -> pf_base g <> pa)
  | (fs', Err e) => e = InvalidFrameId /\ fs' = fs /\
      (forall j g l, fs !! j = Some (Some g, l) -> pf_base g <> pa)
  | (fs', Panic) => fs' = fs /\ exists i f, fs !! i = Some (Some f, 0) /\ pf_base f = pa
  end.
Proof.
  induction fs as [|[[f|] k] fs IH]; simpl.
  - split; [done|]. split; done.
  - destruct (N.eqb_spec (pf_base f) pa) as [<-|Hne].
    + destruct k as [|k].
      * split; [done|]. exists 0, f. done.
      * exists 0, f, k. split; [done|]. split; [done|]. split; [done|]. intros; lia.
    + destruct (pfs_remove_mapping fs pa) as [fs2 [[]|e|]].
      * destruct IH as (i&g&l&H1&H2&->&H4). exists (S i), g, l. split; [done|]. split; [done|].
        split; [done|]. intros [|j] x y Hj; simpl; [by intros [= -> ->]|]. apply H4. lia.
      * destruct IH as (->&->&H). split; [done|]. split; [done|].
        intros [|j] x y; simpl; [by intros [= -> ->]|]. apply H.
      * destruct IH as [-> (i&g&?&?)]. split; [done|]. by exists (S i), g.
  - destruct (pfs_remove_mapping fs pa) as [fs2 [[]|e|]].
    + destruct IH as (i&g&l&H1&H2&->&H4). exists (S i), g, l. split; [done|]. split; [done|].
      split; [done|]. intros [|j] x y Hj; simpl; [done|]. apply H4. lia.
    + destruct IH as (->&->&H). split; [done|]. split; [done|].
      intros [|j] x y; simpl; [done|]. apply H.
    + destruct IH as [-> (i&g&?&?)]. split; [done|]. by exists (S i), g.
Qed.

Lemma pf_inv_step n h fs op fs' r :
  pf_inv n h fs ->
  (forall f, op = PAdd f -> forall i g k, registered h !! i = Some (g, k) -> pf_base g <> pf_base f) ->
  pfs_step fs op = (fs', r) -> pf_inv n (h ++ [(op, r)]) fs'.
Proof.
  intros (Hl&Hm&Hz&Hb&Hd) Hf Hs. unfold pf_inv. rewrite registered_snoc.
  destruct op as [f|i|pa|i|i]; simpl in Hs.
  - unfold pfs_add in Hs. pose proof (pfs_free_spec fs) as Hfr.
    destruct (pfs_free fs) as [i|]; simplify_eq/=; [|done].
    destruct Hfr as [[k Hi] _]. pose proof (lookup_lt_Some _ _ _ Hi).
    split; [by rewrite insert_length|]. split.
    { intros j e Hj. destruct (decide (j = i)) as [->|].
      - rewrite list_lookup_insert in Hj by done. simplify_eq. by rewrite lookup_insert.
      - rewrite list_lookup_insert_ne in Hj by done. rewrite lookup_insert_ne by done. by apply Hm. }
    split.
    { intros j e Hj. destruct (decide (j = i)) as [->|].
      - rewrite list_lookup_insert in Hj by done. done.
      - rewrite list_lookup_insert_ne in Hj by done. by eapply Hz. }
    split.
    { intros j e. destruct (decide (j = i)) as [->|]; [done|]. rewrite lookup_insert_ne by done. apply Hb. }
    intros a b fa fb ka kb Ha Hb' E.
    destruct (decide (a = i)) as [->|]; [rewrite lookup_insert in Ha|rewrite lookup_insert_ne in Ha by done];
    (destruct (decide (b = i)) as [->|]; [rewrite lookup_insert in Hb'|rewrite lookup_insert_ne in Hb' by done]);
      simplify_eq.
    + done.
    + exfalso. by eapply (Hf fa eq_refl b).
    + exfalso. by eapply (Hf fb eq_refl a).
    + by eapply Hd.
  - unfold pfs_add_mapping in Hs. destruct (fs !! i) as [[[f|] k]|] eqn:E; simplify_eq/=; [|done..].
    pose proof (Hm _ _ E) as Hr. simpl in Hr. rewrite Hr.
    pose proof (lookup_lt_Some _ _ _ E).
    split; [by rewrite insert_length|]. split.
    { intros j e Hj. destruct (decide (j = i)) as [->|].
      - rewrite list_lookup_insert in Hj by done. simplify_eq. by rewrite lookup_insert.
      - rewrite list_lookup_insert_ne in Hj by done. rewrite lookup_insert_ne by done. by apply Hm. }
    split.
    { intros j e Hj. destruct (decide (j = i)) as [->|].
      - rewrite list_lookup_insert in Hj by done. done.
      - rewrite list_lookup_insert_ne in Hj by done. by eapply Hz. }
    split.
    { intros j e. destruct (decide (j = i)) as [->|]; [done|]. rewrite lookup_insert_ne by done. apply Hb. }
    intros a b fa fb ka kb Ha Hb' Eb.
    destruct (decide (a = i)) as [->|]; [rewrite lookup_insert in Ha|rewrite lookup_insert_ne in Ha by done];
    (destruct (decide (b = i)) as [->|]; [rewrite lookup_insert in Hb'|rewrite lookup_insert_ne in Hb' by done]);
      simplify_eq; [done|by eapply Hd..].
  - pose proof (pfs_remove_spec fs pa) as Hrm.
    destruct (pfs_remove_mapping fs pa) as [fs2 [[]|e|]]; simplify_eq/=.
    + destruct Hrm as (i&f&k&E&<-&->&_). pose proof (Hm _ _ E) as Hr. simpl in Hr.
      pose proof (lookup_lt_Some _ _ _ E).
      split; [by rewrite insert_length|]. split.
      { intros j e Hj. rewrite lookup_fmap. destruct (decide (j = i)) as [->|].
        - rewrite list_lookup_insert in Hj by done. simplify_eq. rewrite Hr. simpl.
          by rewrite N.eqb_refl.
        - rewrite list_lookup_insert_ne in Hj by done. rewrite (Hm _ _ Hj).
          destruct e as [[g|] l]; [|done]. simpl. destruct (N.eqb_spec (pf_base g) (pf_base f)) as [Eb|]; [|done].
          exfalso. pose proof (Hm _ _ Hj) as Hj'. simpl in Hj'. by apply (Hd _ _ _ _ _ _ Hj' Hr) in Eb. }
      split.
      { intros j e Hj. destruct (decide (j = i)) as [->|].
        - rewrite list_lookup_insert in Hj by done. done.
        - rewrite list_lookup_insert_ne in Hj by done. by eapply Hz. }
      split.
      { intros j e. rewrite lookup_fmap. destruct (registered h !! j) eqn:Ej; [|done]. intros _. by eapply Hb. }
      intros a b fa fb ka kb Ha Hb' Eb. rewrite lookup_fmap in Ha, Hb'.
      destruct (registered h !! a) as [[fa' ka']|] eqn:Ea; [|done].
      destruct (registered h !! b) as [[fb' kb']|] eqn:Eb'; [|done].
      simpl in Ha, Hb'. assert (fa' = fa) as -> by (destruct (_ =? _)%N; congruence).
      assert (fb' = fb) as -> by (destruct (pf_base fb' =? _)%N; congruence). by eapply Hd.
    + destruct Hrm as (_&->&_). done.
    + destruct Hrm as [-> _]. done.
  - unfold pfs_dealloc in Hs. destruct (fs !! i) as [[[f|] [|k]]|] eqn:E; simplify_eq/=; try done.
    pose proof (lookup_lt_Some _ _ _ E).
    split; [by rewrite insert_length|]. split.
    { intros j e Hj. destruct (decide (j = i)) as [->|].
      - rewrite list_lookup_insert in Hj by done. simplify_eq. by rewrite lookup_delete.
      - rewrite list_lookup_insert_ne in Hj by done. rewrite lookup_delete_ne by done. by apply Hm. }
    split.
    { intros j e Hj. destruct (decide (j = i)) as [->|].
      - rewrite list_lookup_insert in Hj by done. by simplify_eq.
      - rewrite list_lookup_insert_ne in Hj by done. by eapply Hz. }
    split.
    { intros j e. destruct (decide (j = i)) as [->|]; [by rewrite lookup_delete|]. rewrite lookup_delete_ne by done. apply Hb. }
    intros a b fa fb ka kb Ha Hb' Eb.
    apply lookup_delete_Some in Ha as [_ Ha]. apply lookup_delete_Some in Hb' as [_ Hb']. by eapply Hd.
  - simplify_eq. done.
Qed.

Lemma pf_inv_run n ops : forall h fs fs' l,
  pf_inv n h fs -> fresh_adds h ops fs -> pfs_run fs ops = (fs', l) -> pf_inv n (h ++ l) fs'.
Proof.
  induction ops as [|op ops IH]; intros h fs fs' l Hi Hf Hr; simpl in Hr.
  { simplify_eq. by rewrite app_nil_r. }
  destruct Hf as [Hf1 Hf2].
  destruct (pfs_step fs op) as [fs1 r] eqn:E. destruct (pfs_run fs1 ops) as [fs2 l2] eqn:E2.
  simplify_eq. replace (h ++ (op, r) :: l2) with ((h ++ [(op, r)]) ++ l2) by (by rewrite <- app_assoc).
  eapply IH; [|exact Hf2|done]. eapply pf_inv_step; [done| |done]. intros f ->. done.
Qed.

Lemma pf_inv_init n : pf_inv n [] (pfs_init n).
Proof.
  unfold pfs_init. split; [by rewrite replicate_length|]. split.
  { intros i e [-> _]%lookup_replicate_1. done. }
  split; [intros i k [? _]%lookup_replicate_1; congruence|].
  change (registered []) with (∅ : gmap nat (pframe * nat)).
  split; [intros i e; by rewrite lookup_empty|]. intros i j f g n' k H. by rewrite lookup_empty in H.
Qed.

(** C26: for every history of frame operations in which each registered frame is not yet
    registered, every next operation answers according to the history: *)
Theorem C26_frames_by_history n ops fs h op :
  fresh_adds [] ops (pfs_init n) ->
  pfs_run (pfs_init n) ops = (fs, h) ->
  let m := registered h in
  match op, (pfs_step fs op).2 with
  (* a registered frame gets the smallest free id below n *)
  | PAdd f, Ok (PId i) => i < n /\ m !! i = None /\ forall j, j < i -> m !! j <> None
  | PAdd f, r => r = Err TooManyRegisteredFrames /\ forall j, j < n -> m !! j <> None
  (* lookup returns the frame registered under the id, with its number of mappings *)
  | PGet i, Ok (PInfo f k) => m !! i = Some (f, k)
  | PGet i, r => r = Err InvalidFrameId /\ m !! i = None
  | PMap i, Ok PUnit => m !! i <> None
  | PMap i, r => r = Err InvalidFrameId /\ m !! i = None
  (* deregistering succeeds only without live mappings and returns that frame *)
  | PDealloc i, Ok (PFrame f) => m !! i = Some (f, 0)
  | PDealloc i, Err FrameStillMapped => exists f k, m !! i = Some (f, S k)
  | PDealloc i, r => r = Err InvalidFrameId /\ m !! i = None
  | PUnmap pa, Ok PUnit => exists i f k, m !! i = Some (f, S k) /\ pf_base f = pa
  | PUnmap pa, Panic => exists i f, m !! i = Some (f, 0) /\ pf_base f = pa
  | PUnmap pa, r => r = Err InvalidFrameId /\ forall i f k, m !! i = Some (f, k) -> pf_base f <> pa
  end.
Proof.
  intros Hf Hr. simpl. apply (pf_inv_run n ops [] _ _ _ (pf_inv_init n) Hf) in Hr as Hi.
  destruct Hi as (Hl&Hm&Hz&Hb&Hd). change ([] ++ h) with h in *.
  assert (forall i, registered h !! i = match fs !! i with Some (Some f, k) => Some (f, k) | _ => None end) as Hall.
  { intros i. destruct (fs !! i) as [e|] eqn:E; [rewrite (Hm _ _ E); by destruct e as [[]]|].
    destruct (registered h !! i) eqn:Er; [|done]. apply Hb in Er. apply lookup_ge_None in E. lia. }
  destruct op as [f|i|pa|i|i]; simpl.
  - unfold pfs_add. pose proof (pfs_free_spec fs) as Hfr. destruct (pfs_free fs) as [i|]; simpl.
    + destruct Hfr as [[k Hi] Hlow]. split; [rewrite <- Hl; by eapply lookup_lt_Some|].
      split; [rewrite Hall; by rewrite Hi|]. intros j Hj. rewrite Hall.
      destruct (Hlow j Hj) as (g&l&->). done.
    + split; [done|]. intros j Hj. rewrite Hall.
      destruct (lookup_lt_is_Some_2 fs j) as [e He]; [lia|]. rewrite He.
      destruct (Hfr _ _ He) as (g&l&->). done.
  - unfold pfs_add_mapping. rewrite Hall. by destruct (fs !! i) as [[[] k]|].
  - pose proof (pfs_remove_spec fs pa) as Hrm. destruct (pfs_remove_mapping fs pa) as [fs2 [[]|e|]]; simpl.
    + destruct Hrm as (i&g&k&E&?&_). exists i, g, k. rewrite Hall, E. done.
    + destruct Hrm as (->&_&Hno). split; [done|]. intros i g k. rewrite Hall.
      destruct (fs !! i) as [[[] ?]|] eqn:E; [|done..]. intros [= -> ->]. by eapply Hno.
    + destruct Hrm as (_&i&g&E&?). exists i, g. rewrite Hall, E. done.
  - unfold pfs_dealloc. rewrite Hall. destruct (fs !! i) as [[[g|] [|k]]|] eqn:E; simpl; try done.
    + eauto.
    + by apply Hz in E.
  - unfold pfs_get. rewrite Hall. by destruct (fs !! i) as [[[] k]|].
Qed.

(** What happens without distinct addresses: an unmap of the second registration counts
    down the first, and the frame can be deregistered although mapped. *)
Theorem C26_same_frame_twice_refuted :
  exists ops fs h, pfs_run (pfs_init 4) ops = (fs, h) /\
    h = [(PAdd (mkPF 4096 4096), Ok (PId 0)); (PAdd (mkPF 4096 4096), Ok (PId 1));
         (PMap 0, Ok PUnit); (PMap 1, Ok PUnit); (PUnmap 4096, Ok PUnit); (* id 1's mapping *)
         (PDealloc 0, Ok (PFrame (mkPF 4096 4096)))].  (* id 0 is still mapped *)
Proof.
  exists [PAdd (mkPF 4096 4096); PAdd (mkPF 4096 4096); PMap 0; PMap 1; PUnmap 4096; PDealloc 0].
  do 2 eexists. split; vm_compute; reflexivity.
Qed.

Example C26_hyps_met :
  let ops := [PAdd (mkPF 4096 4096); PAdd (mkPF 8192 4096); PMap 1; PDealloc 1; PUnmap 8192; PDealloc 1] in
  fresh_adds [] ops (pfs_init 192) /\
  (pfs_run (pfs_init 192) ops).2 =
    [(PAdd (mkPF 4096 4096), Ok (PId 0)); (PAdd (mkPF 8192 4096), Ok (PId 1)); (PMap 1, Ok PUnit);
     (PDealloc 1, Err FrameStillMapped); (PUnmap 8192, Ok PUnit); (PDealloc 1, Ok (PFrame (mkPF 8192 4096)))].
Proof.
  split; [|vm_compute; reflexivity].
  cbn [fresh_adds]. split.
  { change (registered []) with (∅ : gmap nat (pframe * nat)). intros i g n H. by rewrite lookup_empty in H. }
  split; [|done]. intros i g n H.
  assert (registered ([] ++ [(PAdd (mkPF 4096 4096), (pfs_step (pfs_init 192) (PAdd (mkPF 4096 4096))).2)]) =
    <[0 := (mkPF 4096 4096, 0)]> ∅) as E by reflexivity.
  rewrite E in H. apply lookup_insert_Some in H as [[_ [= <- _]]|[_ H]]; [done|]. by rewrite lookup_empty in H.
Qed.

Print Assumptions C24_pid_allocation.
Print Assumptions C24_reuse_only_after_free.
Print Assumptions C25_release_core.
Print Assumptions C25_reallocated_only_after_release.
Print Assumptions C26_frames_by_history.
