(** C26 (frames of a process, with its address space), C41 (executors), and which cores an unmap
    names (C30). *)
From Verif Require Import Base TlbModel SysModel NodeModel VsModel VsSpec VsProofs PrcModel PrcSpec TlbProps SysProps NodeProps VsProps PrcProofs.

(** ** C26 *)

(** No operation of a disciplined history panics. *)
Theorem C26_process_no_panic lg dbg nm vs ops s h :
  start_ok lg dbg vs -> hist_ok lg dbg nm [] (prc_init vs) ops ->
  prc_run lg dbg nm (prc_init vs) ops = (s, h) -> forall op r, (op, r) ∈ h -> r <> Panic.
Proof.
  intros H0 Hok E. pose proof (pinv_run lg dbg nm ops [] _ (pinv_init lg dbg nm vs H0) Hok) as [_ Hp].
  rewrite E in Hp. exact Hp.
Qed.
Print Assumptions C26_process_no_panic.

Lemma run_pinv lg dbg nm vs ops s h :
  start_ok lg dbg vs -> hist_ok lg dbg nm [] (prc_init vs) ops ->
  prc_run lg dbg nm (prc_init vs) ops = (s, h) -> pinv lg dbg nm h s.
Proof.
  intros H0 Hok E. pose proof (pinv_run lg dbg nm ops [] _ (pinv_init lg dbg nm vs H0) Hok) as [I _].
  rewrite E in I. exact I.
Qed.

Lemma mapped_by_id_iff lg dbg nm h s i f k : pinv lg dbg nm h s -> p_pfm s !! i = Some (Some f, k) ->
  mapped_by_id s f <-> al (vs_map (p_vs s)) (pf_base f) <> 0.
Proof.
  intros I Hi. destruct (C21_bookkeeping _ _ _ (pi_reach _ _ _ _ _ I)) as (B1 & B2 & _).
  assert (reg h !! i = Some f) as Hr by (by rewrite (pi_reg _ _ _ _ _ I), Hi).
  split.
  - intros (x & p & r & Hx & Hres & Ha & Hin). destruct (B2 _ _ _ Hx Hres) as (b & mi & Hb & Hw & -> & ->).
    cbn [granted ma_alias] in Ha. destruct (pi_al _ _ _ _ _ I _ _ Hb Ha) as (j & g & l & Hj & Hg & Hs).
    destruct (decide (j = i)) as [->|Hne].
    + rewrite Hi in Hj. injection Hj as <- <-. rewrite Hg. intros Hz. by apply (al_zero _ _ _ _ Hz Hb Ha).
    + exfalso. assert (reg h !! j = Some g) as Hr' by (by rewrite (pi_reg _ _ _ _ _ I), Hj).
      apply (pi_disj _ _ _ _ _ I _ _ _ _ Hr Hr' ltac:(done)). exists (mi_pa mi + (x - b))%N. split; [done|].
      unfold in_frame, within in *. lia.
  - intros Hz. apply al_pos in Hz as (b & mi & Hb & Ha & Hp).
    destruct (pi_al _ _ _ _ _ I _ _ Hb Ha) as (j & g & l & Hj & Hg & Hs).
    pose proof (pi_fok _ _ _ _ _ I _ _ Hr) as Hfr. apply frame_pos in Hfr.
    destruct (vi_rec _ _ (reach_inv _ _ _ (pi_reach _ _ _ _ _ I)) _ _ Hb) as (P & _). apply page_frame_pos in P.
    destruct (B1 b mi b Hb) as [Hlt Hres]; [unfold within; lia|].
    eexists b, _, _. split; [done|]. split; [exact Hres|]. split; [done|]. unfold in_frame, within. lia.
Qed.

(** Ids: registering returns an id not in use, and fails only with all of them in use. *)
Theorem C26_register lg dbg nm vs ops s h f :
  start_ok lg dbg vs -> hist_ok lg dbg nm [] (prc_init vs) ops ->
  prc_run lg dbg nm (prc_init vs) ops = (s, h) ->
  match (prc_step lg dbg nm s (PoAddFrame f)).2 with
  | Ok (PrFid i) => i < 192 /\ reg h !! i = None
  | Err e => e = TooManyRegisteredFrames /\ forall i, i < 192 -> is_Some (reg h !! i)
  | _ => False
  end.
Proof.
  intros H0 Hok E. pose proof (run_pinv _ _ _ _ _ _ _ H0 Hok E) as I. cbn [prc_step]. unfold pfs_add.
  pose proof (pfs_free_spec (p_pfm s)) as Hfr. pose proof (pi_len _ _ _ _ _ I) as Hl. unfold MAX_FRAMES_PER_PROCESS in Hl.
  destruct (pfs_free (p_pfm s)) as [i|]; cbn [rmap snd].
  - destruct Hfr as [[k Hi] _]. split; [rewrite <- Hl; by eapply lookup_lt_Some|]. by rewrite (pi_reg _ _ _ _ _ I), Hi.
  - split; [done|]. intros i Hi. destruct (lookup_lt_is_Some_2 (p_pfm s) i) as [e He]; [lia|].
    destruct (Hfr _ _ He) as (g & k & ->). by rewrite (pi_reg _ _ _ _ _ I), He.
Qed.
Print Assumptions C26_register.

(** Mapping by id maps the frame registered under it, all of it, or fails. *)
Theorem C26_map_by_id lg dbg nm vs ops s h b id a refill s' :
  start_ok lg dbg vs -> hist_ok lg dbg nm [] (prc_init vs) ops ->
  prc_run lg dbg nm (prc_init vs) ops = (s, h) -> op_ok lg nm h s (PoMapId b id a refill) ->
  match reg h !! id with
  | None => prc_step lg dbg nm s (PoMapId b id a refill) = (s, Err InvalidFrameId)
  | Some f =>
      forall r, prc_step lg dbg nm s (PoMapId b id a refill) = (s', Ok r) ->
      r = PrMapped (pf_base f) (pf_size f) /\
      forall y, (y < pf_size f)%N -> (vs_resolve (p_vs s) b = Err NotMapped ->
        vs_resolve (p_vs s') (b + y) = Ok ((pf_base f + y)%N, granted a))
  end.
Proof.
  intros H0 Hok E [Ha H48]. pose proof (run_pinv _ _ _ _ _ _ _ H0 Hok E) as I. cbn [prc_step].
  rewrite (pi_reg _ _ _ _ _ I) in *. unfold pfs_get, pfs_add_mapping.
  destruct (p_pfm s !! id) as [[[f|] k]|] eqn:Ei; [|done..]. intros r. destruct refill; [|done].
  specialize (H48 f). specialize (H48 eq_refl).
  assert (frame_ok lg f) as [Hs Hal]. { eapply (pi_fok _ _ _ _ _ I id). by rewrite (pi_reg _ _ _ _ _ I), Ei. }
  pose proof (pi_reach _ _ _ _ _ I) as R.
  destruct (map_step_cases lg dbg (p_vs s) b (pf_base f) (pf_size f) a R Hs H48) as (q & Eq & R' & _ & Hc).
  rewrite Eq. destruct q as [v [[]|e|]]; cbn [rmap fst snd] in *; intros Hst; [|done..]. injection Hst as <- <-.
  split; [done|]. intros y Hy Hb. destruct Hc as [(Hm & _)|[_ Hno]]; [|by destruct Hno].
  cbn [p_vs]. destruct (C21_bookkeeping _ _ _ R') as (B1 & _).
  destruct (B1 b (mkMI (pf_base f) (pf_size f) a) (b + y)%N) as [_ Hres].
  - rewrite Hm. apply lookup_insert.
  - unfold within. cbn [mi_size]. lia.
  - rewrite Hres. cbn [mi_pa mi_rights]. do 2 f_equal. lia.
Qed.
Print Assumptions C26_map_by_id.

(** Releasing: it returns the registered frame and only if no mapping made by id reaches it;
    unknown ids are refused; a refusal changes nothing. *)
Theorem C26_release_safe lg dbg nm vs ops s h id :
  start_ok lg dbg vs -> hist_ok lg dbg nm [] (prc_init vs) ops ->
  prc_run lg dbg nm (prc_init vs) ops = (s, h) ->
  match (prc_step lg dbg nm s (PoRelease id)).2, reg h !! id with
  | Ok r, Some f => r = PrFrame f /\ ~ mapped_by_id s f
  | Err e, Some f => e = FrameStillMapped /\ (prc_step lg dbg nm s (PoRelease id)).1 = s
  | Err e, None => e = InvalidFrameId /\ (prc_step lg dbg nm s (PoRelease id)).1 = s
  | _, _ => False
  end.
Proof.
  intros H0 Hok E. pose proof (run_pinv _ _ _ _ _ _ _ H0 Hok E) as I. cbn [prc_step]. rewrite (pi_reg _ _ _ _ _ I).
  assert (forall s0 : prc, mkPrc (p_vs s0) (p_pfm s0) (p_eid s0) (p_exoff s0) (p_cache s0) (p_active s0) = s0) as Eta by (by intros []).
  unfold pfs_dealloc. destruct (p_pfm s !! id) as [[[f|] [|k]]|] eqn:Ei; cbn [rmap fst snd]; rewrite ?Eta; try done.
  - split; [done|]. rewrite (mapped_by_id_iff _ _ _ _ _ _ _ _ I Ei). pose proof (pi_cnt _ _ _ _ _ I _ _ _ Ei). lia.
  - by apply (pi_zero _ _ _ _ _ I) in Ei.
Qed.
Print Assumptions C26_release_safe.

(** If every map by id took effect, release succeeds exactly when nothing is mapped. *)
Theorem C26_release_exact lg dbg nm vs ops s h id f :
  start_ok lg dbg vs -> hist_ok lg dbg nm [] (prc_init vs) ops -> clean lg dbg nm (prc_init vs) ops ->
  prc_run lg dbg nm (prc_init vs) ops = (s, h) -> reg h !! id = Some f ->
  (mapped_by_id s f -> (prc_step lg dbg nm s (PoRelease id)).2 = Err FrameStillMapped) /\
  (~ mapped_by_id s f -> (prc_step lg dbg nm s (PoRelease id)).2 = Ok (PrFrame f)).
Proof.
  intros H0 Hok Hcl E Hid. pose proof (run_pinv _ _ _ _ _ _ _ H0 Hok E) as I.
  assert (exact s) as X.
  { pose proof (exact_run lg dbg nm ops [] _ (pinv_init lg dbg nm vs H0)) as X. rewrite E in X. apply X; [|done..].
    intros i g k Hi. cbn [prc_init p_pfm] in Hi. unfold pfs_init in Hi. by apply lookup_replicate_1 in Hi as [? _]. }
  rewrite (pi_reg _ _ _ _ _ I) in Hid. destruct (p_pfm s !! id) as [[[g|] k]|] eqn:Ei; [|done..]. injection Hid as ->.
  rewrite (mapped_by_id_iff _ _ _ _ _ _ _ _ I Ei). rewrite (X _ _ _ Ei). cbn [prc_step]. unfold pfs_dealloc. rewrite Ei.
  destruct k as [|k]; split; intros Hk; cbn [rmap snd]; try done. by destruct Hk.
Qed.
Print Assumptions C26_release_exact.

(** If physical memory is used once, a released frame is not mapped at all. *)
Definition apart (h : list (pop * res pret)) (s : prc) : Prop :=
  forall b mi i f y, vs_map (p_vs s) !! b = Some mi -> ma_alias (mi_rights mi) = false -> reg h !! i = Some f ->
    within (mi_pa mi) (mi_size mi) y -> in_frame f y -> False.

Lemma apart_map lg dbg (nm : nat) h s b f a vs r :
  reach lg dbg (p_vs s) -> page_sized lg (pf_size f) -> (b + pf_size f <= 2 ^ 48)%N -> ma_alias a = false ->
  (forall i g, reg h !! i = Some g -> ~ meets f g) -> apart h s ->
  vs_map_frame lg (p_vs s) b (pf_base f) (pf_size f) a = (vs, r) ->
  forall k mi i g y, vs_map vs !! k = Some mi -> ma_alias (mi_rights mi) = false -> reg h !! i = Some g ->
    within (mi_pa mi) (mi_size mi) y -> in_frame g y -> False.
Proof.
  intros R Hs H48 Ha Hx Hap Ev k mi i g y Hk Hal Hg H1 H2.
  destruct (map_step_cases lg dbg (p_vs s) b (pf_base f) (pf_size f) a R Hs H48) as (q & Eq & _ & _ & Hc).
  rewrite Ev in Eq. subst q. cbn [fst snd] in Hc. destruct Hc as [(Hm & _)|[-> _]]; [|by eapply Hap].
  rewrite Hm in Hk. destruct (decide (k = b)) as [->|].
  - rewrite lookup_insert in Hk. injection Hk as <-. cbn [mi_pa mi_size] in H1. eapply Hx; [exact Hg|]. by exists y.
  - rewrite lookup_insert_ne in Hk by done. by eapply Hap.
Qed.

Lemma apart_step lg dbg nm h s op s' r :
  pinv lg dbg nm h s -> apart h s -> op_ok lg nm h s op -> excl_op h s op -> prc_step lg dbg nm s op = (s', r) ->
  apart (h ++ [(op, r)]) s'.
Proof.
  intros I A Hop Hx Hs. pose proof (pi_reach _ _ _ _ _ I) as R. unfold apart. rewrite reg_snoc.
  destruct op as [f aff fail|b f a refill|f a|b id a refill|va|g region oom|f|id]; cbn [prc_step op_ok excl_op reg_step] in *.
  - destruct Hop as ([Hf Hal] & Hsz & Haff & Hoff & H48 & Hun). unfold alloc_executors in Hs. rewrite <- Hsz in H48.
    destruct (vs_map_frame lg (p_vs s) (p_exoff s) (pf_base f) (pf_size f) (ma_or ma_user ma_write_)) as [v r0] eqn:Ev.
    pose proof (apart_map lg dbg nm h s _ _ (ma_or ma_user ma_write_) _ _ R Hf H48 eq_refl Hx A Ev) as H.
    destruct r0; [|by injection Hs as <- <-..].
    destruct (carve _ _ _ _ _ _ _) as [[e c] [ | | ]]; by injection Hs as <- <-.
  - destruct Hop as ([Hf _] & Ha & H48). destruct refill; [|by injection Hs as <- <-].
    destruct (vs_map_frame lg (p_vs s) b (pf_base f) (pf_size f) a) as [v r0] eqn:Ev. injection Hs as <- <-.
    by eapply apart_map.
  - destruct Hop as (Hf & Ha & H48).
    destruct (vs_map_frame lg (p_vs s) (pf_base f) (pf_base f) (pf_size f) a) as [v r0] eqn:Ev. injection Hs as <- <-.
    by eapply apart_map.
  - destruct Hop as (Ha & H48). unfold pfs_get, pfs_add_mapping in Hs.
    destruct (p_pfm s !! id) as [[[f|] k]|] eqn:E; [|by injection Hs as <- <-..].
    destruct refill; [|by injection Hs as <- <-].
    assert (reg h !! id = Some f) as Hid by (by rewrite (pi_reg _ _ _ _ _ I), E).
    destruct (pi_fok _ _ _ _ _ I _ _ Hid) as [Hs' _]. specialize (H48 _ Hid).
    destruct (map_step_cases lg dbg (p_vs s) b (pf_base f) (pf_size f) a R Hs' H48) as ([v r0] & Ev & _ & _ & Hc).
    rewrite Ev in Hs. injection Hs as <- <-. cbn [p_vs fst snd] in *. destruct Hc as [(Hm & _)|[-> _]]; [|done].
    intros k0 mi i g y Hk Hal. rewrite Hm in Hk. destruct (decide (k0 = b)) as [->|].
    + rewrite lookup_insert in Hk. injection Hk as <-. cbn [mi_rights] in Hal. congruence.
    + rewrite lookup_insert_ne in Hk by done. by eapply A.
  - pose proof (C19_unmap lg dbg (p_vs s) va R Hop) as Hu.
    assert (forall v q, vs_unmap dbg (p_vs s) va = (v, q) -> forall k mi, vs_map v !! k = Some mi -> vs_map (p_vs s) !! k = Some mi) as Hsub.
    { intros v q Ev k mi. destruct (vs_resolve (p_vs s) va).
      2-3: destruct Hu as (e' & Eu & _); rewrite Eu in Ev; by injection Ev as <- <-.
      destruct Hu as [(_ & Eu)|(_ & v' & vb & p & sz & a' & Eu & _ & _ & _ & Hdel & _)]; rewrite Eu in Ev; injection Ev as <- <-; [done|].
      rewrite Hdel. intros Hk. by apply lookup_delete_Some in Hk as [_ ?]. }
    destruct (vs_unmap dbg (p_vs s) va) as [v [[[[vb pa] sz] a]|e|]]; [|by injection Hs as <- <-..].
    specialize (Hsub _ _ eq_refl). destruct (if ma_alias a then _ else _) as [fs q].
    destruct q; injection Hs as <- <-; intros k mi i g y Hk; eapply A; by apply Hsub.
  - destruct (get_executor (p_cache s) region) as [c [x|e|]]; [destruct oom|..]; by injection Hs as <- <-.
  - unfold pfs_add in Hs. pose proof (pfs_free_spec (p_pfm s)) as Hfr. destruct (pfs_free (p_pfm s)) as [i|]; injection Hs as <- <-; cbn [rmap p_vs]; [|done].
    intros b mi j g y Hb Hal Hj H1 H2. destruct (decide (j = i)) as [->|].
    + rewrite lookup_insert in Hj. injection Hj as <-.
      destruct (C21_bookkeeping _ _ _ R) as (B1 & _). destruct (B1 b mi (b + (y - mi_pa mi))%N Hb) as [H48 Hr]; [unfold within in *; lia|].
      eapply Hx; [exact H48|exact Hr|]. replace (mi_pa mi + (b + (y - mi_pa mi) - b))%N with y by (unfold within in *; lia). done.
    + rewrite lookup_insert_ne in Hj by done. by eapply A.
  - unfold pfs_dealloc in Hs. destruct (p_pfm s !! id) as [[[f|] [|k]]|]; injection Hs as <- <-; cbn [rmap p_vs]; try done.
    intros b mi j g y Hb Hal Hj. apply lookup_delete_Some in Hj as [_ Hj]. by eapply A.
Qed.

Theorem C26_released_frame_unmapped lg dbg nm vs ops s h id f :
  start_ok lg dbg vs -> hist_ok lg dbg nm [] (prc_init vs) ops -> excl lg dbg nm [] (prc_init vs) ops ->
  prc_run lg dbg nm (prc_init vs) ops = (s, h) ->
  (prc_step lg dbg nm s (PoRelease id)).2 = Ok (PrFrame f) ->
  forall x p r, (x < 2 ^ 48)%N -> vs_resolve (p_vs s) x = Ok (p, r) -> ~ in_frame f p.
Proof.
  intros H0 Hok Hex E Hrel.
  assert (forall ops h0 s0, pinv lg dbg nm h0 s0 -> apart h0 s0 -> hist_ok lg dbg nm h0 s0 ops -> excl lg dbg nm h0 s0 ops ->
    apart (h0 ++ (prc_run lg dbg nm s0 ops).2) (prc_run lg dbg nm s0 ops).1) as Hrun.
  { clear. induction ops as [|op ops IH]; intros h0 s0 I A Hok Hex; cbn [prc_run hist_ok excl] in *.
    { cbn [fst snd]. by rewrite app_nil_r. }
    destruct Hok as [H1 H2], Hex as [X1 X2]. destruct (prc_step lg dbg nm s0 op) as [s1 r] eqn:E. cbn [fst snd] in H2, X2.
    destruct (pinv_step _ _ _ _ _ _ _ _ I H1 E) as [_ I'].
    pose proof (apart_step _ _ _ _ _ _ _ _ I A H1 X1 E) as A'. specialize (IH _ _ I' A' H2 X2).
    destruct (prc_run lg dbg nm s1 ops) as [s2 rs]. cbn [fst snd] in *. by rewrite <- app_assoc in IH. }
  specialize (Hrun ops [] (prc_init vs) (pinv_init lg dbg nm vs H0)). rewrite E in Hrun. cbn [fst snd app] in Hrun.
  assert (apart h s) as A. { apply Hrun; [|done..]. intros b mi i g y _ _ Hg. unfold reg in Hg. cbn [foldl] in Hg. by rewrite lookup_empty in Hg. }
  pose proof (C26_release_safe lg dbg nm vs ops s h id H0 Hok E) as Hsafe. rewrite Hrel in Hsafe.
  destruct (reg h !! id) as [g|] eqn:Hid; [|done]. destruct Hsafe as [[= <-] Hno].
  pose proof (run_pinv _ _ _ _ _ _ _ H0 Hok E) as I. intros x p r Hx Hr Hin.
  destruct (ma_alias r) eqn:Ha; [apply Hno; by exists x, p, r|].
  destruct (C21_bookkeeping _ _ _ (pi_reach _ _ _ _ _ I)) as (_ & B2 & _). destruct (B2 _ _ _ Hx Hr) as (b & mi & Hb & Hw & -> & ->).
  cbn [granted ma_alias] in Ha. eapply (A b mi id f); [done..| |exact Hin]. unfold within in *. lia.
Qed.
Print Assumptions C26_released_frame_unmapped.

(** A history of the examples: executor memory, a registered frame mapped twice by id, another
    registered, a core, an unmap. *)
Definition ex_ops : list pop :=
  [PoDisp (mkPF 0x40000000 LARGE) 1 None; PoAddFrame (mkPF 0x5000 4096); PoMapId 0x1000 0 ma_frame_id true;
   PoAddFrame (mkPF 0x7000 4096); PoMapId 0x3000 0 ma_frame_id true; PoAssign 3 1 false; PoUnmap 0x1000].
Lemma init_unmapped x : vs_resolve vs_init x = Err NotMapped.
Proof. apply resolve_none. unfold walk. cbn [vs_init vs_pt]. by rewrite lookup_empty. Qed.
Lemma ex_start dbg : start_ok true dbg vs_init.
Proof. split; [constructor|]. intros x p r _ H. by rewrite init_unmapped in H. Qed.
Lemma ex_hist_ok dbg : hist_ok true dbg 2 [] (prc_init vs_init) ex_ops.
Proof.
  unfold ex_ops. split.
  { cbn [op_ok prc_init p_exoff p_vs]. split; [split; [by right|by vm_compute]|]. split; [done|]. split; [unfold MAX_NUMA_NODES; lia|].
    split; [by vm_compute|]. split; [by vm_compute|]. intros x _. apply init_unmapped. }
  split. { split; [split; [by left|done]|]. intros i g Hi.
    match type of Hi with reg ?h !! _ = _ => assert (reg h = ∅) as E by (by vm_compute) end. rewrite E in Hi. by rewrite lookup_empty in Hi. }
  split. { split; [done|]. intros g Hg. vm_compute in Hg. by injection Hg as <-. }
  split. { split; [split; [by left|done]|]. intros i g Hi.
    assert (i = 0 /\ g = mkPF 0x5000 4096) as [-> ->].
    { match type of Hi with reg ?h !! _ = _ => assert (reg h = {[0 := mkPF 0x5000 4096]}) as E by (by vm_compute) end.
      rewrite E in Hi. apply lookup_singleton_Some in Hi as [-> <-]. done. }
    intros (x & H1 & H2). unfold in_frame, within in *. cbn [pf_base pf_size] in *. lia. }
  split. { split; [done|]. intros g Hg. vm_compute in Hg. by injection Hg as <-. }
  split. { split_and!; [unfold MAX_NUMA_NODES; lia|by vm_compute..]. }
  split; done.
Qed.
Lemma ex_clean : clean true true 2 (prc_init vs_init) ex_ops.
Proof. unfold ex_ops. repeat split; try (by right; split; vm_compute). Qed.
Lemma ex_excl : excl true true 2 [] (prc_init vs_init) [PoAddFrame (mkPF 0x5000 4096); PoMapId 0x1000 0 ma_frame_id true; PoUnmap 0x1000].
Proof.
  split; [|done]. intros x p r _ H. change (p_vs (prc_init vs_init)) with vs_init in H. by rewrite init_unmapped in H.
Qed.

(** The conditions hold of this history; frame 0 is mapped once at its end, frame 1 is not; the
    first release is refused, the second works, and after another unmap so does the first. *)
Example C26_process_hyps_met :
  start_ok true true vs_init /\ hist_ok true true 2 [] (prc_init vs_init) ex_ops /\ clean true true 2 (prc_init vs_init) ex_ops /\
  (let p := prc_run true true 2 (prc_init vs_init) ex_ops in
   reg p.2 !! 0 = Some (mkPF 0x5000 4096) /\ reg p.2 !! 1 = Some (mkPF 0x7000 4096) /\ reg p.2 !! 2 = None /\
   vs_resolve (p_vs p.1) 0x3004 = Ok (0x5004%N, granted ma_frame_id) /\ vs_resolve (p_vs p.1) 0x1004 = Err NotMapped /\
   (prc_step true true 2 p.1 (PoRelease 0)).2 = Err FrameStillMapped /\
   (prc_step true true 2 p.1 (PoRelease 1)).2 = Ok (PrFrame (mkPF 0x7000 4096)) /\
   (prc_step true true 2 (prc_step true true 2 p.1 (PoUnmap 0x3000)).1 (PoRelease 0)).2 = Ok (PrFrame (mkPF 0x5000 4096)) /\
   (prc_step true true 2 p.1 (PoAddFrame (mkPF 0x9000 4096))).2 = Ok (PrFid 2)) /\
  excl true true 2 [] (prc_init vs_init) [PoAddFrame (mkPF 0x5000 4096); PoMapId 0x1000 0 ma_frame_id true; PoUnmap 0x1000].
Proof.
  split; [apply ex_start|]. split; [apply ex_hist_ok|]. split; [apply ex_clean|]. split; [|apply ex_excl].
  cbn zeta. repeat split; vm_compute; reflexivity.
Qed.

(** The full claim, that a frame with no mapping can be released, is false: the count is taken
    before the mapping is attempted and kept if that fails (the address was in use), or if it was
    there already. *)
Theorem C26_failed_map_pins_frame_refuted : exists ops s h id f,
  hist_ok true true 1 [] (prc_init vs_init) ops /\ prc_run true true 1 (prc_init vs_init) ops = (s, h) /\
  reg h !! id = Some f /\ ~ mapped_by_id s f /\ (prc_step true true 1 s (PoRelease id)).2 = Err FrameStillMapped.
Proof.
  exists [PoMapFrame 0x1000 (mkPF 0x9000 4096) ma_write_ true; PoAddFrame (mkPF 0x5000 4096); PoMapId 0x1000 0 ma_frame_id true].
  set (ops := [_; _; _]). exists (prc_run true true 1 (prc_init vs_init) ops).1, (prc_run true true 1 (prc_init vs_init) ops).2, 0, (mkPF 0x5000 4096).
  assert (hist_ok true true 1 [] (prc_init vs_init) ops) as Hok.
  { split; [split; [split; [by left|done]|done]|]. split.
    { split; [split; [by left|done]|]. intros i g Hi.
      match type of Hi with reg ?h !! _ = _ => assert (reg h = ∅) as E by (by vm_compute) end. rewrite E in Hi. by rewrite lookup_empty in Hi. }
    split; [|done]. split; [done|]. intros g Hg. vm_compute in Hg. by injection Hg as <-. }
  split; [exact Hok|]. split; [by destruct (prc_run true true 1 (prc_init vs_init) ops)|].
  split; [by vm_compute|]. split; [|by vm_compute].
  pose proof (run_pinv true true 1 vs_init ops _ _ (ex_start true) Hok (surjective_pairing _)) as I.
  assert (exists k, p_pfm (prc_run true true 1 (prc_init vs_init) ops).1 !! 0 = Some (Some (mkPF 0x5000 4096), k)) as [k Hk]
    by (eexists; by vm_compute).
  rewrite (mapped_by_id_iff _ _ _ _ _ _ _ _ I Hk). intros H. apply H. by vm_compute.
Qed.
Theorem C26_repeated_map_pins_frame_refuted : exists ops s h id f,
  hist_ok true true 1 [] (prc_init vs_init) ops /\ prc_run true true 1 (prc_init vs_init) ops = (s, h) /\
  Forall (fun o => is_ok o.2) h /\
  reg h !! id = Some f /\ ~ mapped_by_id s f /\ (prc_step true true 1 s (PoRelease id)).2 = Err FrameStillMapped.
Proof.
  exists [PoAddFrame (mkPF 0x5000 4096); PoMapId 0x1000 0 ma_frame_id true; PoMapId 0x1000 0 ma_frame_id true; PoUnmap 0x1000].
  set (ops := [_; _; _; _]). exists (prc_run true true 1 (prc_init vs_init) ops).1, (prc_run true true 1 (prc_init vs_init) ops).2, 0, (mkPF 0x5000 4096).
  assert (hist_ok true true 1 [] (prc_init vs_init) ops) as Hok.
  { split.
    { split; [split; [by left|done]|]. intros i g Hi. unfold reg in Hi. cbn [foldl] in Hi. by rewrite lookup_empty in Hi. }
    split; [split; [done|]; intros g Hg; vm_compute in Hg; by injection Hg as <-|].
    split; [split; [done|]; intros g Hg; vm_compute in Hg; by injection Hg as <-|]. done. }
  split; [exact Hok|]. split; [by destruct (prc_run true true 1 (prc_init vs_init) ops)|].
  split; [vm_compute; by repeat constructor|].
  split; [by vm_compute|]. split; [|by vm_compute].
  pose proof (run_pinv true true 1 vs_init ops _ _ (ex_start true) Hok (surjective_pairing _)) as I.
  assert (exists k, p_pfm (prc_run true true 1 (prc_init vs_init) ops).1 !! 0 = Some (Some (mkPF 0x5000 4096), k)) as [k Hk]
    by (eexists; by vm_compute).
  rewrite (mapped_by_id_iff _ _ _ _ _ _ _ _ I Hk). intros H. apply H. by vm_compute.
Qed.
Print Assumptions C26_failed_map_pins_frame_refuted.
Print Assumptions C26_repeated_map_pins_frame_refuted.

(** ** C30: the cores an unmap names *)

(** An unmap that succeeds names exactly the hardware threads that ever got an executor of this
    process: machine by machine, as core sets. *)
Theorem C30_unmap_names_cores lg dbg nm vs ops s h va s' vb sz cores :
  start_ok lg dbg vs -> hist_ok lg dbg nm [] (prc_init vs) ops ->
  prc_run lg dbg nm (prc_init vs) ops = (s, h) -> (va < 2 ^ 48)%N ->
  prc_step lg dbg nm s (PoUnmap va) = (s', Ok (PrUnmapped vb sz cores)) ->
  length cores = nm /\
  forall m t, (exists set, cores !! m = Some set /\ cb_mem set t = true) <->
    exists g, assigned h g /\ mid_from_gtid g = N.of_nat m /\ mtid_from_gtid g = t.
Proof.
  intros H0 Hok E Hva Hst. pose proof (run_pinv _ _ _ _ _ _ _ H0 Hok E) as I.
  assert (forall g, assigned h g <-> exists e, (g, e) ∈ p_active s) as Hact.
  { pose proof (C26_process_no_panic _ _ _ _ _ _ _ H0 Hok E) as _.
    assert (forall ops s0 h0 s1 h1, (forall g, assigned h0 g <-> exists e, (g, e) ∈ p_active s0) ->
      prc_run lg dbg nm s0 ops = (s1, h1) -> forall g, assigned (h0 ++ h1) g <-> exists e, (g, e) ∈ p_active s1) as Hrun.
    { clear. induction ops as [|op ops IH]; intros s0 h0 s1 h1 H0 E; cbn [prc_run] in E.
      { injection E as <- <-. by rewrite app_nil_r. }
      destruct (prc_step lg dbg nm s0 op) as [s2 r] eqn:Es. destruct (prc_run lg dbg nm s2 ops) as [s3 rs] eqn:Er.
      injection E as <- <-. specialize (IH s2 (h0 ++ [(op, r)]) s3 rs). rewrite <- app_assoc in IH. apply IH; [|done]. clear IH Er.
      intros g. assert (assigned (h0 ++ [(op, r)]) g <-> assigned h0 g \/ exists rg oom x, op = PoAssign g rg oom /\ r = Ok (PrExec x)) as Ha.
      { unfold assigned. split.
        - intros (rg & oom & x & Hi). apply elem_of_app in Hi as [Hi|Hi]; [left; eauto|]. apply elem_of_list_singleton in Hi. injection Hi as <- <-. right. eauto.
        - intros [(rg & oom & x & Hi)|(rg & oom & x & -> & ->)]; exists rg, oom, x; apply elem_of_app; [by left|right; apply elem_of_list_singleton; done]. }
      rewrite Ha, H0. clear Ha H0.
      assert ((exists rg oom x, op = PoAssign g rg oom /\ r = Ok (PrExec x) /\ p_active s2 = p_active s0 ++ [(g, x_eid x)]) \/
        ~ (exists rg oom x, op = PoAssign g rg oom /\ r = Ok (PrExec x)) /\ (forall e, (g, e) ∈ p_active s2 <-> (g, e) ∈ p_active s0)) as Hc.
      { destruct op as [f aff fail|b f a refill|f a|b id a refill|va|g' region oom|f|id]; cbn [prc_step] in Es.
        - right. split; [naive_solver|]. unfold alloc_executors in Es. repeat case_match; simplify_eq; done.
        - right. split; [naive_solver|]. repeat case_match; simplify_eq; done.
        - right. split; [naive_solver|]. repeat case_match; simplify_eq; done.
        - right. split; [naive_solver|]. repeat case_match; simplify_eq; done.
        - right. split; [naive_solver|]. repeat case_match; simplify_eq; done.
        - destruct (get_executor (p_cache s0) region) as [c [x|e|]]; [destruct oom|..]; injection Es as <- <-.
          + right. split; [naive_solver|done].
          + destruct (decide (g = g')) as [->|Hne]; [left; by exists region, false, x|right]. split; [naive_solver|].
            intros e. cbn [p_active]. rewrite elem_of_app, elem_of_list_singleton. naive_solver.
          + right. split; [naive_solver|done].
          + right. split; [naive_solver|done].
        - right. split; [naive_solver|]. repeat case_match; simplify_eq; done.
        - right. split; [naive_solver|]. repeat case_match; simplify_eq; done. }
      destruct Hc as [(rg & oom & x & -> & -> & ->)|[Hno Heq]].
      - split; [|naive_solver]. intros [(e & He)|_]; [exists e; apply elem_of_app; by left|]. exists (x_eid x). apply elem_of_app. right. by apply elem_of_list_singleton.
      - split; [intros [(e & He)|?]; [exists e; by apply Heq|done]|]. intros (e & He). left. exists e. by apply Heq. }
    apply (Hrun ops (prc_init vs) [] s h); [|done]. intros g. split; [intros (? & ? & ? & Hi)|intros (? & Hi)]; by apply elem_of_nil in Hi. }
  cbn [prc_step] in Hst. destruct (vs_unmap dbg (p_vs s) va) as [v [[[[vb' pa] sz'] a]|e|]]; [|done..].
  destruct (if ma_alias a then _ else _) as [fs [[]|e|]]; [|done..].
  destruct (add_cores_spec nm (p_active s) (replicate nm (mkCbm 0 0))) as (hs & Eac & L & _ & S).
  { by rewrite replicate_length. }
  { intros i m Hi. apply lookup_replicate_1 in Hi as [-> _]. by split. }
  { apply (pi_act _ _ _ _ _ I). }
  rewrite Eac in Hst. cbn [rmap] in Hst. injection Hst as <- <- <- <-. split; [done|]. intros m t. rewrite S. split.
  - intros [(k & Hk & Ht)|([g e] & Hi & H1 & H2)].
    + apply lookup_replicate_1 in Hk as [-> _]. exfalso. unfold cb_mem in Ht. cbn [cb_low cb_high] in Ht. rewrite !N.bits_0 in Ht. by repeat case_match.
    + cbn [fst] in H1, H2. exists g. split; [apply Hact; by exists e|]. split; [lia|done].
  - intros (g & Hg & H1 & H2). apply Hact in Hg as [e He]. right. exists (g, e). cbn [fst]. split; [done|]. split; [lia|done].
Qed.
Print Assumptions C30_unmap_names_cores.

Example C30_unmap_names_cores_hyps_met :
  let p := prc_run true true 2 (prc_init vs_init) ex_ops in
  assigned p.2 3 /\ exists s' vb sz cores, prc_step true true 2 p.1 (PoUnmap 0x3000) = (s', Ok (PrUnmapped vb sz cores)) /\
  cores = [mkCbm 8 0; mkCbm 0 0].
Proof.
  cbn zeta. split.
  - exists 1, false, (nth_exec 0 EXECUTOR_OFFSET (mkPF 0x40000000 LARGE) 1 9). unfold ex_ops. vm_compute.
    do 5 (apply elem_of_list_further). apply elem_of_list_here.
  - set (p := prc_step true true 2 (prc_run true true 2 (prc_init vs_init) ex_ops).1 (PoUnmap 0x3000)).
    destruct p as [s' r] eqn:E. subst p.
    assert (r = Ok (PrUnmapped 0x3000 4096 [mkCbm 8 0; mkCbm 0 0])) as ->.
    { transitivity ((s', r).2); [reflexivity|]. rewrite <- E. by vm_compute. }
    exists s', 0x3000%N, 4096%N, [mkCbm 8 0; mkCbm 0 0]. split; reflexivity.
Qed.

(** ** C41 *)

Lemma run_xinv lg dbg nm vs ops s h :
  prc_run lg dbg nm (prc_init vs) ops = (s, h) -> (forall op r, (op, r) ∈ h -> r <> Panic) -> xinv h s.
Proof.
  intros E Hp. pose proof (xinv_run lg dbg nm ops [] (prc_init vs) (xinv_init vs)) as X. rewrite E in X. by apply X.
Qed.

(** The executors given to cores were all created, and no two have the same id; the ids of the
    created ones are 0, 1, 2, ... *)
Theorem C41_handed_out_once lg dbg nm vs ops s h :
  prc_run lg dbg nm (prc_init vs) ops = (s, h) -> (forall op r, (op, r) ∈ h -> r <> Panic) ->
  map x_eid (created h) = seq 0 (length (created h)) /\
  (forall x, x ∈ handed h -> x ∈ created h) /\
  (forall i j x y, handed h !! i = Some x -> handed h !! j = Some y -> x_eid x = x_eid y -> i = j).
Proof.
  intros E Hp. pose proof (run_xinv _ _ _ _ _ _ _ E Hp) as X. pose proof (ex_hist_eids h) as He.
  assert (length (created h) = (ex_hist h).1.1) as Hl by (by rewrite <- (map_length x_eid), He, seq_length).
  destruct (xi_perm _ _ X) as [lost Hperm].
  split; [by rewrite Hl|]. split.
  { intros x Hx. rewrite Hperm. apply elem_of_app. right. apply elem_of_app. by left. }
  assert (NoDup (map x_eid (handed h))) as Hnd.
  { assert (NoDup (map x_eid (created h))) as H by (rewrite He; apply NoDup_seq).
    rewrite Hperm in H. rewrite !map_app in H. apply NoDup_app in H as (_ & _ & H). by apply NoDup_app in H as (H & _). }
  intros i j x y Hi Hj Hxy. eapply (NoDup_lookup (map x_eid (handed h))); [done|..];
    change (map x_eid (handed h)) with (x_eid <$> handed h); rewrite list_lookup_fmap; [by rewrite Hi|by rewrite Hj, Hxy].
Qed.
Print Assumptions C41_handed_out_once.

(** Asking for an executor of a region: it succeeds as long as fewer were taken than created for
    the region; the executor is of that region and was not handed out before; the error tells
    whether any was ever created. *)
Theorem C41_assign lg dbg nm vs ops s h g r oom :
  prc_run lg dbg nm (prc_init vs) ops = (s, h) -> (forall op r, (op, r) ∈ h -> r <> Panic) -> r < 12 ->
  let n := length (filter (fun x => x_aff x = r) (created h)) in
  taken h r <= n /\
  match (prc_step lg dbg nm s (PoAssign g r oom)).2 with
  | Ok (PrExec x) => taken h r < n /\ oom = false /\ x_aff x = r /\ x ∈ created h /\ x ∉ handed h
  | Err NoExecutorAllocated => n = 0
  | Err ExecutorCacheExhausted => 0 < n /\ taken h r = n
  | Err OutOfMemory => taken h r < n /\ oom = true
  | _ => False
  end.
Proof.
  intros E Hp Hr n. pose proof (run_xinv _ _ _ _ _ _ _ E Hp) as X.
  destruct (lookup_lt_is_Some_2 (p_cache s) r) as [o Ho]; [by rewrite (xi_len _ _ X)|].
  pose proof (xi_cnt _ _ X _ _ Ho) as Hc. fold (of_region r (created h)) in n. cbn [prc_step]. unfold get_executor. rewrite Ho.
  destruct o as [l|].
  2:{ destruct Hc as [Hc1 Hc2]. cbn [snd]. subst n. rewrite Hc1, Hc2. done. }
  destruct Hc as [Hc1 Hc2]. fold n in Hc2.
  assert (0 < n) as Hn by (subst n; destruct (of_region r (created h)); [done|cbn; lia]).
  destruct (last l) as [x|] eqn:El.
  2:{ apply last_None in El as ->. cbn [length] in Hc2. cbn [snd]. split; lia. }
  apply last_Some in El as [l' ->]. rewrite app_length in Hc2. cbn [length] in Hc2. split; [lia|].
  destruct oom; cbn [snd]; [split; [lia|done]|]. split; [lia|]. split; [done|].
  assert (x ∈ l' ++ [x]) as Hx by (apply elem_of_app; right; by apply elem_of_list_singleton).
  split; [by eapply (xi_aff _ _ X)|]. destruct (xi_perm _ _ X) as [lost Hperm].
  destruct (cached_insert _ _ _ None Ho) as [_ P2].
  assert (x ∈ cached (p_cache s)) as Hxc by (rewrite P2; apply elem_of_app; by left).
  split; [rewrite Hperm; apply elem_of_app; by left|].
  assert (NoDup (map x_eid (created h))) as Hnd by (rewrite ex_hist_eids; apply NoDup_seq).
  rewrite Hperm, !map_app in Hnd. apply NoDup_app in Hnd as (_ & Hnd & _). intros Hh.
  apply (Hnd (x_eid x)); [by apply elem_of_list_In, in_map, elem_of_list_In|].
  apply elem_of_app. left. by apply elem_of_list_In, in_map, elem_of_list_In.
Qed.
Print Assumptions C41_assign.

(** If no allocation of executor memory fails, the memory of the executors is disjoint and lies
    between the start of the executor area and its end. *)
Lemma created_layout h :
  (forall f aff fail e, (PoDisp f aff fail, Err e) ∉ h) ->
  (EXECUTOR_OFFSET <= (ex_hist h).1.2)%N /\
  (forall x, x ∈ created h -> (EXECUTOR_OFFSET <= x_stack x)%N /\ (x_stack x + EXEC_SPACE <= (ex_hist h).1.2)%N) /\
  (forall x y, x ∈ created h -> y ∈ created h -> x_eid x < x_eid y -> (x_stack x + EXEC_SPACE <= x_stack y)%N).
Proof.
  induction h as [|[op r] h IH] using rev_ind; intros Hno.
  { split; [done|]. split; [intros x Hx|intros x y Hx]; by apply elem_of_nil in Hx. }
  destruct IH as (I1 & I2 & I3). { intros f aff fail e Hin. eapply Hno. apply elem_of_app. left. exact Hin. }
  pose proof (ex_hist_eids h) as He. unfold created in *. rewrite ex_hist_snoc.
  assert ((exists f aff fail a, op = PoDisp f aff fail /\ r = Ok a) \/ ex_step (ex_hist h) (op, r) = ex_hist h) as [Hc|Hc].
  { destruct op; try (right; by destruct (ex_hist h) as [[] ]). destruct r as [a|e|]; [left; eauto 10|exfalso|right].
    - eapply Hno. apply elem_of_app. right. apply elem_of_list_singleton. done.
    - destruct (ex_hist h) as [[] ]. cbn [ex_step]. by destruct fail. }
  2:{ by rewrite Hc. }
  destruct Hc as (f & aff & fail & a & -> & ->). destruct (ex_hist h) as [[e v] l] eqn:Eh. cbn [fst snd] in *.
  assert (ex_step (e, v, l) (PoDisp f aff fail, Ok a) =
    (e + N.to_nat (pf_size f / EXEC_SPACE), (v + pf_size f)%N, l ++ map (nth_exec e v f aff) (seq 0 (N.to_nat (pf_size f / EXEC_SPACE))))) as Es
    by (by destruct fail).
  rewrite Es. clear Es. cbn [fst snd]. set (n := N.to_nat (pf_size f / EXEC_SPACE)).
  assert (N.of_nat n * EXEC_SPACE <= pf_size f)%N as Hn.
  { subst n. rewrite N2Nat.id. rewrite N.mul_comm. apply N.mul_div_le. done. }
  assert (forall x, x ∈ map (nth_exec e v f aff) (seq 0 n) -> exists k, k < n /\ x_eid x = e + k /\ x_stack x = (v + N.of_nat k * EXEC_SPACE)%N) as Hnew.
  { intros x Hx. apply elem_of_list_In, in_map_iff in Hx as (k & <- & Hk). apply in_seq in Hk. exists k. split; [lia|done]. }
  assert (forall k, k < n -> (N.of_nat k * EXEC_SPACE + EXEC_SPACE <= N.of_nat n * EXEC_SPACE)%N) as Hk.
  { intros k Hk. assert (N.of_nat k + 1 <= N.of_nat n)%N as H by lia. apply (N.mul_le_mono_r _ _ EXEC_SPACE) in H.
    rewrite N.mul_add_distr_r in H. lia. }
  assert (forall x, x ∈ l -> x_eid x < e) as Hold.
  { intros x Hx. assert (x_eid x ∈ seq 0 e) as H. { rewrite <- He. by apply elem_of_list_In, in_map, elem_of_list_In. }
    apply elem_of_seq in H. lia. }
  split; [lia|]. split.
  - intros x Hx. apply elem_of_app in Hx as [Hx|Hx]; [specialize (I2 _ Hx); lia|].
    destruct (Hnew _ Hx) as (k & K1 & _ & ->). specialize (Hk _ K1). lia.
  - intros x y Hx Hy Hlt. apply elem_of_app in Hx as [Hx|Hx]; apply elem_of_app in Hy as [Hy|Hy].
    + by apply I3.
    + destruct (Hnew _ Hy) as (k & K1 & _ & ->). specialize (I2 _ Hx). lia.
    + destruct (Hnew _ Hx) as (k & K1 & K2 & _). specialize (Hold _ Hy). lia.
    + destruct (Hnew _ Hx) as (k & K1 & K2 & ->). destruct (Hnew _ Hy) as (j & J1 & J2 & ->).
      assert (N.of_nat k + 1 <= N.of_nat j)%N as H by lia. apply (N.mul_le_mono_r _ _ EXEC_SPACE) in H.
      rewrite N.mul_add_distr_r in H. lia.
Qed.

Theorem C41_regions_disjoint_partial lg dbg nm vs ops s h :
  prc_run lg dbg nm (prc_init vs) ops = (s, h) -> (forall op r, (op, r) ∈ h -> r <> Panic) ->
  (forall f aff fail e, (PoDisp f aff fail, Err e) ∉ h) ->
  (forall x z, x ∈ handed h -> exec_mem x z -> (EXECUTOR_OFFSET <= z < p_exoff s)%N) /\
  (forall i j x y z, handed h !! i = Some x -> handed h !! j = Some y -> exec_mem x z -> exec_mem y z -> i = j).
Proof.
  intros E Hp Hno. destruct (C41_handed_out_once _ _ _ _ _ _ _ E Hp) as (_ & Hsub & Huniq).
  destruct (created_layout h Hno) as (_ & L1 & L2). pose proof (run_xinv _ _ _ _ _ _ _ E Hp) as X.
  split.
  - intros x z Hx [Z1 Z2]. specialize (L1 _ (Hsub _ Hx)). rewrite (xi_pos _ _ X) in L1. cbn [snd] in L1. lia.
  - intros i j x y z Hi Hj [X1 X2] [Y1 Y2]. eapply Huniq; [done..|].
    pose proof (Hsub x ltac:(by eapply elem_of_list_lookup_2)) as Cx. pose proof (Hsub y ltac:(by eapply elem_of_list_lookup_2)) as Cy.
    destruct (Nat.lt_trichotomy (x_eid x) (x_eid y)) as [H|[H|H]]; [|done|]; apply L2 in H; [lia|done..|lia|done|done].
Qed.
Print Assumptions C41_regions_disjoint_partial.

(** Inside its memory an executor has its two stacks and its control block, one after the other;
    the stacks are page aligned and their tops lie inside, aligned as at a function entry. *)
Theorem C41_layout lg dbg nm vs ops s h x :
  prc_run lg dbg nm (prc_init vs) ops = (s, h) -> (forall op r, (op, r) ∈ h -> r <> Panic) ->
  (forall f aff fail r, (PoDisp f aff fail, r) ∈ h -> (pf_size f mod 4096 = 0)%N) ->
  x ∈ handed h ->
  x_upstack x = (x_stack x + 98304)%N /\ x_vcpu x = (x_upstack x + 98304)%N /\
  (forall y, within (x_vcpu x) VCPU_SIZE y -> exec_mem x y) /\
  (x_stack x mod 4096 = 0)%N /\ (x_upstack x mod 4096 = 0)%N /\ (x_vcpu x mod 4096 = 0)%N /\
  within (x_stack x) 98304 (stack_top x) /\ (stack_top x mod 16 = 8)%N /\
  within (x_upstack x) 98304 (upcall_stack_top x) /\ (upcall_stack_top x mod 16 = 8)%N.
Proof.
  intros E Hp Hal Hx. destruct (C41_handed_out_once _ _ _ _ _ _ _ E Hp) as (_ & Hsub & _). apply Hsub in Hx.
  destruct (ex_hist_from h x Hx) as (h1 & f & aff & fail & r & h2 & k & Eh & -> & _).
  assert ((ex_hist h1).1.2 mod 4096 = 0)%N as Hv.
  { assert (forall f aff fail r, (PoDisp f aff fail, r) ∈ h1 -> (pf_size f mod 4096 = 0)%N) as Hal1.
    { intros g aff' fail' r' Hin. eapply Hal. rewrite Eh. apply elem_of_app. left. exact Hin. }
    clear - Hal1. induction h1 as [|[op r] h1 IH] using rev_ind; [done|]. rewrite ex_hist_snoc.
    assert ((ex_hist h1).1.2 mod 4096 = 0)%N as H. { apply IH. intros f aff fail r' Hin. eapply Hal1. apply elem_of_app. left. exact Hin. }
    destruct (ex_hist h1) as [[e v] l]. cbn [fst snd] in H. destruct op; cbn [ex_step]; try done. destruct r; [|by destruct fail..].
    assert (pf_size f mod 4096 = 0)%N as Hf. { eapply Hal1. apply elem_of_app. right. by apply elem_of_list_singleton. }
    assert ((v + pf_size f) mod 4096 = 0)%N as Hs. { rewrite N.add_mod by done. by rewrite H, Hf. }
    by destruct fail. }
  set (v := (ex_hist h1).1.2) in *. clearbody v. unfold nth_exec, stack_top, upcall_stack_top, exec_mem, within.
  cbn [x_stack x_upstack x_vcpu]. unfold INIT_STACK, UPCALL_STACK, EXEC_SPACE, VCPU_SIZE.
  assert (exists q, v + N.of_nat k * 200704 = 4096 * q)%N as [q Hq].
  { exists (v / 4096 + N.of_nat k * 49)%N. pose proof (N.div_mod v 4096 ltac:(done)) as D. rewrite Hv in D. lia. }
  rewrite Hq. clear Hq Hv Hx Hsub Eh Hal E Hp.
  assert (forall a c, ((4096 * a + c) mod 4096 = c mod 4096)%N) as M1.
  { intros a c. rewrite N.add_comm, N.mul_comm. by apply N.mod_add. }
  assert (forall a c, ((16 * a + c) mod 16 = c mod 16)%N) as M2.
  { intros a c. rewrite N.add_comm, N.mul_comm. by apply N.mod_add. }
  split_and!; try lia.
  - rewrite <- (N.add_0_r (4096 * q)). by rewrite M1.
  - by rewrite M1.
  - rewrite <- N.add_assoc. by rewrite M1.
  - replace (4096 * q + 98304 - 8)%N with (16 * (256 * q + 6143) + 8)%N by lia. by rewrite M2.
  - replace (4096 * q + 98304 + 98304 - 8)%N with (16 * (256 * q + 12287) + 8)%N by lia. by rewrite M2.
Qed.
Print Assumptions C41_layout.

(** As long as the process unmaps nothing in the executor area, every executor's memory is
    mapped, writable from user space, to consecutive physical memory, and the kernel's pointer to
    the control block is the kernel's view of the memory the process sees there. *)
Definition exec_mapped (s : prc) (l : list exr) : Prop :=
  forall x, x ∈ l -> exists v f k, vs_map (p_vs s) !! v = Some (mkMI (pf_base f) (pf_size f) (ma_or ma_user ma_write_)) /\
    (EXECUTOR_OFFSET <= v)%N /\ (N.of_nat k * EXEC_SPACE + EXEC_SPACE <= pf_size f)%N /\
    x_stack x = (v + N.of_nat k * EXEC_SPACE)%N /\ x_vcpu x = (x_stack x + INIT_STACK + UPCALL_STACK)%N /\
    x_vcpuk x = (pf_base f + N.of_nat k * EXEC_SPACE + INIT_STACK + UPCALL_STACK + KERNEL_BASE)%N.

Lemma exec_mapped_mono s s' l : exec_mapped s l ->
  (forall v mi, (EXECUTOR_OFFSET <= v)%N -> vs_map (p_vs s) !! v = Some mi -> vs_map (p_vs s') !! v = Some mi) -> exec_mapped s' l.
Proof.
  intros H Hm x Hx. destruct (H x Hx) as (v & f & k & H1 & H2 & H3). exists v, f, k. split; [by apply Hm|done].
Qed.
Lemma map_keeps lg dbg vs b p sz a v mi :
  reach lg dbg vs -> page_sized lg sz -> (b + sz <= 2 ^ 48)%N -> vs_map vs !! v = Some mi ->
  vs_map (vs_map_frame lg vs b p sz a).1 !! v = Some mi.
Proof.
  intros R Hs Hb Hv. destruct (map_step_cases lg dbg vs b p sz a R Hs Hb) as (r & -> & _ & _ & [(Hm & Hn & _)|[-> _]]); [|done].
  rewrite Hm. rewrite lookup_insert_ne; [done|]. congruence.
Qed.

Theorem C41_memory lg dbg nm vs ops s h x :
  start_ok lg dbg vs -> hist_ok lg dbg nm [] (prc_init vs) ops ->
  (forall va, PoUnmap va ∈ ops -> (va < EXECUTOR_OFFSET)%N) ->
  prc_run lg dbg nm (prc_init vs) ops = (s, h) -> x ∈ handed h ->
  exists p, (x_vcpuk x = p + (x_vcpu x - x_stack x) + KERNEL_BASE)%N /\
    forall y, (y < EXEC_SPACE)%N -> vs_resolve (p_vs s) (x_stack x + y) = Ok ((p + y)%N, granted (ma_or ma_user ma_write_)).
Proof.
  intros H0 Hok Hun E Hx. pose proof (run_pinv _ _ _ _ _ _ _ H0 Hok E) as I.
  destruct (C41_handed_out_once _ _ _ _ _ _ _ E (C26_process_no_panic _ _ _ _ _ _ _ H0 Hok E)) as (_ & Hsub & _). apply Hsub in Hx.
  assert (exec_mapped s (created h)) as Hm.
  { assert (forall ops h0 s0, pinv lg dbg nm h0 s0 -> xinv h0 s0 -> (EXECUTOR_OFFSET <= p_exoff s0)%N -> exec_mapped s0 (created h0) ->
      hist_ok lg dbg nm h0 s0 ops -> (forall va, PoUnmap va ∈ ops -> (va < EXECUTOR_OFFSET)%N) ->
      exec_mapped (prc_run lg dbg nm s0 ops).1 (created (h0 ++ (prc_run lg dbg nm s0 ops).2))) as Hrun.
    2:{ specialize (Hrun ops [] (prc_init vs) (pinv_init lg dbg nm vs H0) (xinv_init vs)). rewrite E in Hrun. cbn [fst snd app] in Hrun.
        apply Hrun; [done| |done|done]. intros y Hy. by apply elem_of_nil in Hy. }
    clear. induction ops as [|op ops IH]; intros h s I X Hoff Hm Hok Hun; cbn [prc_run hist_ok] in *.
    { cbn [fst snd]. by rewrite app_nil_r. }
    destruct Hok as [H1 H2]. destruct (prc_step lg dbg nm s op) as [s1 r] eqn:E. cbn [fst snd] in H2.
    destruct (pinv_step _ _ _ _ _ _ _ _ I H1 E) as [Hnp I']. pose proof (xinv_step _ _ _ _ _ _ _ _ X E Hnp) as X'.
    assert ((EXECUTOR_OFFSET <= p_exoff s1)%N /\ exec_mapped s1 (created (h ++ [(op, r)]))) as [Hoff' Hm'].
    2:{ specialize (IH _ _ I' X' Hoff' Hm' H2). destruct (prc_run lg dbg nm s1 ops) as [s2 rs]. cbn [fst snd] in *.
        rewrite <- app_assoc in IH. apply IH. intros va Hva. apply Hun. by right. }
    clear IH H2 I' X'. pose proof (pi_reach _ _ _ _ _ I) as R.
    assert (forall t, (forall f aff fail, op <> PoDisp f aff fail) -> ex_step t (op, r) = t) as Hst.
    { intros [[e v] l] Hno. by destruct op; try done; destruct (Hno f aff fail). }
    assert ((forall f aff fail, op <> PoDisp f aff fail) -> p_exoff s1 = p_exoff s ->
      (forall v mi, (EXECUTOR_OFFSET <= v)%N -> vs_map (p_vs s) !! v = Some mi -> vs_map (p_vs s1) !! v = Some mi) ->
      (EXECUTOR_OFFSET <= p_exoff s1)%N /\ exec_mapped s1 (created (h ++ [(op, r)]))) as Heasy.
    { intros Hno Eo Hk. split; [by rewrite Eo|]. unfold created. rewrite ex_hist_snoc, Hst by done. by eapply exec_mapped_mono. }
    destruct op as [f aff fail|b f a refill|f a|b id a refill|va|g region oom|f|id]; cbn [prc_step op_ok] in E, H1.
    - clear Heasy Hst. destruct H1 as ([Hf Hal] & Hsz & Haff & Hexal & H48 & Hunm). unfold alloc_executors in E. rewrite <- Hsz in *.
      destruct (C17_map_unmapped_range lg dbg (p_vs s) (p_exoff s) (pf_base f) (pf_size f) (ma_or ma_user ma_write_) R Hf H48 Hal Hexal Hunm) as (vs' & Ev & _).
      assert (vs_map vs' = <[p_exoff s := mkMI (pf_base f) (pf_size f) (ma_or ma_user ma_write_)]> (vs_map (p_vs s)) /\ vs_map (p_vs s) !! p_exoff s = None) as [Hins Hnone].
      { destruct (map_step_cases lg dbg (p_vs s) (p_exoff s) (pf_base f) (pf_size f) (ma_or ma_user ma_write_) R Hf H48) as (q & Eq & _ & _ & Hc).
        rewrite Ev in Eq. subst q. cbn [fst snd] in Hc. destruct Hc as [(? & ? & _)|[_ Hno]]; [done|]. exfalso. apply (Hno eq_refl).
        apply Hunm. apply page_frame_pos in Hf. unfold within. lia. }
      rewrite Ev in E. set (n := N.to_nat (pf_size f / EXEC_SPACE)) in *.
      assert (carved n fail = 0 \/ aff < length (p_cache s)) as Hcc by (right; by rewrite (xi_len _ _ X)).
      rewrite (carve_spec n _ _ _ _ _ _ (pf_size f) Hcc) in E.
      assert (ex_hist h = (p_eid s, p_exoff s, created h)) as Eh.
      { unfold created. rewrite <- (xi_pos _ _ X). by destruct (ex_hist h). }
      assert (N.of_nat n * EXEC_SPACE <= pf_size f)%N as Hn.
      { subst n. rewrite N2Nat.id. rewrite N.mul_comm. apply N.mul_div_le. done. }
      assert (p_vs s1 = vs' /\ (p_exoff s <= p_exoff s1)%N /\
        created (h ++ [(PoDisp f aff fail, r)]) = created h ++ map (nth_exec (p_eid s) (p_exoff s) f aff) (seq 0 (carved n fail))) as (E1 & E2 & E3).
      { unfold created. rewrite ex_hist_snoc, Eh. cbn [snd].
        destruct (decide (carved n fail < n)) as [Hlt|Hge]; cbn [rmap] in E; injection E as <- <-; cbn [p_vs p_exoff].
        - split; [done|]. split; [lia|]. destruct fail as [k|]; cbn [carved] in *; [|lia]. cbn [ex_step snd]. by assert (k `min` n = k) as -> by lia.
        - split; [done|]. split; [lia|]. assert (carved n fail = n) as -> by (destruct fail; cbn [carved] in *; lia). by destruct fail. }
      split; [lia|]. rewrite E3. intros x Hx. apply elem_of_app in Hx as [Hx|Hx].
      + destruct (Hm x Hx) as (v & g & k & K1 & K2). exists v, g, k. split; [|done]. rewrite E1, Hins. rewrite lookup_insert_ne; [done|]. congruence.
      + apply elem_of_list_In, in_map_iff in Hx as (k & <- & Hk). apply in_seq in Hk. exists (p_exoff s), f, k. cbn [nth_exec x_stack x_vcpu x_vcpuk].
        rewrite E1, Hins, lookup_insert. split_and!; [done..| |done|done|done].
        assert (k < n) as Hkn by (destruct fail; cbn [carved] in Hk; lia).
        assert (N.of_nat k + 1 <= N.of_nat n)%N as H by lia. apply (N.mul_le_mono_r _ _ EXEC_SPACE) in H. rewrite N.mul_add_distr_r in H. lia.
    - destruct H1 as ([Hf _] & Ha & H48). destruct refill; [|injection E as <- <-; by apply Heasy].
      pose proof (fun v mi Hv => map_keeps lg dbg (p_vs s) b (pf_base f) (pf_size f) a v mi R Hf H48 Hv) as Hk.
      destruct (vs_map_frame lg (p_vs s) b (pf_base f) (pf_size f) a) as [v r0]. injection E as <- <-. apply Heasy; [done..|]. intros; by apply Hk.
    - destruct H1 as (Hf & Ha & H48).
      pose proof (fun v mi Hv => map_keeps lg dbg (p_vs s) (pf_base f) (pf_base f) (pf_size f) a v mi R Hf H48 Hv) as Hk.
      destruct (vs_map_frame lg (p_vs s) (pf_base f) (pf_base f) (pf_size f) a) as [v r0]. injection E as <- <-. apply Heasy; [done..|]. intros; by apply Hk.
    - destruct H1 as (Ha & H48). unfold pfs_get, pfs_add_mapping in E.
      destruct (p_pfm s !! id) as [[[f|] k]|] eqn:Ei; [|injection E as <- <-; by apply Heasy..].
      assert (reg h !! id = Some f) as Hid by (by rewrite (pi_reg _ _ _ _ _ I), Ei).
      destruct (pi_fok _ _ _ _ _ I _ _ Hid) as [Hf _]. specialize (H48 _ Hid).
      destruct refill; [|injection E as <- <-; by apply Heasy].
      pose proof (fun v mi Hv => map_keeps lg dbg (p_vs s) b (pf_base f) (pf_size f) a v mi R Hf H48 Hv) as Hk.
      destruct (vs_map_frame lg (p_vs s) b (pf_base f) (pf_size f) a) as [v r0]. injection E as <- <-. apply Heasy; [done..|]. intros; by apply Hk.
    - pose proof (C19_unmap lg dbg (p_vs s) va R H1) as Hu. assert (va < EXECUTOR_OFFSET)%N as Hva by (apply Hun; by left).
      destruct (vs_resolve (p_vs s) va).
      2-3: destruct Hu as (e' & Eu & _); rewrite Eu in E; injection E as <- <-; by apply Heasy.
      destruct Hu as [(_ & Eu)|(_ & v' & vb & p & sz & a' & Eu & _ & [W1 _] & _ & Hdel & _)]; rewrite Eu in E; [injection E as <- <-; by apply Heasy|].
      assert (forall v mi, (EXECUTOR_OFFSET <= v)%N -> vs_map (p_vs s) !! v = Some mi -> vs_map v' !! v = Some mi) as Hk.
      { intros v mi Hv Hl. rewrite Hdel, lookup_delete_ne; [done|]. lia. }
      destruct (if ma_alias (granted a') then _ else _) as [fs q]. destruct q; injection E as <- <-; by apply Heasy.
    - destruct (get_executor (p_cache s) region) as [c [x|e|]]; [destruct oom|..]; injection E as <- <-; by apply Heasy.
    - destruct (pfs_add (p_pfm s) f) as [fs r0]. injection E as <- <-. by apply Heasy.
    - destruct (pfs_dealloc (p_pfm s) id) as [fs r0]. injection E as <- <-. by apply Heasy. }
  destruct (Hm x Hx) as (v & f & k & Hv & _ & Hk & Es & Ec & Ek).
  exists (pf_base f + N.of_nat k * EXEC_SPACE)%N. split; [rewrite Ek, Ec; set (N.of_nat k * EXEC_SPACE)%N; clearbody n; lia|].
  intros y Hy. destruct (C21_bookkeeping _ _ _ (pi_reach _ _ _ _ _ I)) as (B1 & _).
  destruct (B1 v _ (x_stack x + y)%N Hv) as [_ ->].
  - unfold within. cbn [mi_size]. rewrite Es. lia.
  - cbn [mi_pa mi_rights]. rewrite Es. do 2 f_equal. lia.
Qed.
Print Assumptions C41_memory.

(** The example history: one page of executors, one of them given to a core. *)
Example C41_hyps_met :
  let p := prc_run true true 2 (prc_init vs_init) ex_ops in
  start_ok true true vs_init /\ hist_ok true true 2 [] (prc_init vs_init) ex_ops /\
  (forall op r, (op, r) ∈ p.2 -> r <> Panic) /\ (forall f aff fail e, (PoDisp f aff fail, Err e) ∉ p.2) /\
  (forall f aff fail r, (PoDisp f aff fail, r) ∈ p.2 -> (pf_size f mod 4096 = 0)%N) /\
  (forall va, PoUnmap va ∈ ex_ops -> (va < EXECUTOR_OFFSET)%N) /\
  length (created p.2) = 10 /\ handed p.2 = [nth_exec 0 EXECUTOR_OFFSET (mkPF 0x40000000 LARGE) 1 9] /\
  taken p.2 1 = 1 /\ is_ok (prc_step true true 2 p.1 (PoAssign 4 1 false)).2 /\
  (prc_step true true 2 p.1 (PoAssign 4 0 false)).2 = Err NoExecutorAllocated.
Proof.
  cbn zeta. split; [apply ex_start|]. split; [apply ex_hist_ok|].
  split.
  { eapply C26_process_no_panic; [apply ex_start|apply ex_hist_ok|apply surjective_pairing]. }
  split. { intros f aff fail e Hin. vm_compute in Hin. repeat (apply elem_of_cons in Hin as [Hin|Hin]; [discriminate|]). by apply elem_of_nil in Hin. }
  split. { intros f aff fail r Hin. vm_compute in Hin. apply elem_of_cons in Hin as [[= -> _ _ _]|Hin]; [done|].
    repeat (apply elem_of_cons in Hin as [Hin|Hin]; [discriminate|]). by apply elem_of_nil in Hin. }
  split. { intros va Hin. unfold ex_ops in Hin. do 6 (apply elem_of_cons in Hin as [Hin|Hin]; [discriminate|]). apply elem_of_cons in Hin as [[= ->]|Hin]; [done|]. by apply elem_of_nil in Hin. }
  split; [by vm_compute|]. split; [by vm_compute|]. split; [by vm_compute|]. split; by vm_compute.
Qed.

(** Not so once an allocation failed: the area does not grow, so if the process unmaps the
    memory the next executors are put over the ones made before. *)
Theorem C41_regions_overlap_refuted : exists ops s h i j x y z,
  prc_run true true 1 (prc_init vs_init) ops = (s, h) /\ (forall op r, (op, r) ∈ h -> r <> Panic) /\
  handed h !! i = Some x /\ handed h !! j = Some y /\ i <> j /\ exec_mem x z /\ exec_mem y z.
Proof.
  set (ops := [PoDisp (mkPF 0x40000000 LARGE) 0 (Some 1); PoAssign 0 0 false; PoUnmap EXECUTOR_OFFSET;
    PoDisp (mkPF 0x40200000 LARGE) 0 (Some 1); PoAssign 0 0 false]).
  exists ops, (prc_run true true 1 (prc_init vs_init) ops).1, (prc_run true true 1 (prc_init vs_init) ops).2, 0, 1,
    (nth_exec 0 EXECUTOR_OFFSET (mkPF 0x40000000 LARGE) 0 0), (nth_exec 1 EXECUTOR_OFFSET (mkPF 0x40200000 LARGE) 0 0), EXECUTOR_OFFSET.
  split; [apply surjective_pairing|].
  split. { intros op r Hin Hr. subst r. vm_compute in Hin. repeat (apply elem_of_cons in Hin as [Hin|Hin]; [discriminate|]). by apply elem_of_nil in Hin. }
  split; [by vm_compute|]. split; [by vm_compute|]. split; [done|].
  unfold exec_mem, within, nth_exec, EXEC_SPACE. cbn [x_stack]. lia.
Qed.
Print Assumptions C41_regions_overlap_refuted.

(** Without the unmap, the next attempt panics. *)
Theorem C41_failed_allocation_then_panic_refuted :
  map snd (prc_run true true 1 (prc_init vs_init)
    [PoDisp (mkPF 0x40000000 LARGE) 0 (Some 1); PoDisp (mkPF 0x40200000 LARGE) 0 None]).2 = [Err OutOfMemory; Panic].
Proof. by vm_compute. Qed.
Print Assumptions C41_failed_allocation_then_panic_refuted.

(** Executors are lost if a core cannot be recorded: here all of a page, and none was used. *)
Theorem C41_executors_lost_refuted :
  let p := prc_run true true 1 (prc_init vs_init) (PoDisp (mkPF 0x40000000 LARGE) 0 None :: replicate 10 (PoAssign 0 0 true)) in
  handed p.2 = [] /\ length (created p.2) = 10 /\ (prc_step true true 1 p.1 (PoAssign 0 0 false)).2 = Err ExecutorCacheExhausted.
Proof. cbn zeta. split; [by vm_compute|]. split; by vm_compute. Qed.
Print Assumptions C41_executors_lost_refuted.

(** A process that maps memory at the start of the executor area itself makes the kernel panic. *)
Theorem C41_user_mapping_in_area_panics_refuted :
  map snd (prc_run true true 1 (prc_init vs_init)
    [PoMapFrame EXECUTOR_OFFSET (mkPF 0x9000 4096) ma_write_ true; PoDisp (mkPF 0x40000000 LARGE) 0 None]).2 = [Ok PrOk; Panic].
Proof. by vm_compute. Qed.
Print Assumptions C41_user_mapping_in_area_panics_refuted.
