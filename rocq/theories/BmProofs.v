(** Proofs about the boot volumes. *)
From Verif Require Import Base BmModel BmSpec.

Local Opaque PAGE KERNEL_OFFSET.

Lemma page_4096 : PAGE = 4096%N.
Proof. reflexivity. Qed.

(** ** Memory *)

Lemma slice_store mem base data :
  slice (store mem base data) base (N.of_nat (length data)) = data.
Proof.
  unfold slice. rewrite Nat2N.id.
  apply (nth_ext _ _ 0%N 0%N).
  - rewrite map_length, seq_length. reflexivity.
  - intros i Hi. rewrite map_length, seq_length in Hi.
    rewrite (nth_indep _ 0%N (store mem base data (base + N.of_nat 0)%N))
      by (rewrite map_length, seq_length; exact Hi).
    rewrite (map_nth (λ i, store mem base data (base + N.of_nat i)%N)).
    rewrite seq_nth by exact Hi. unfold store.
    replace (base <=? base + N.of_nat (0 + i))%N with true by (symmetry; apply N.leb_le; lia).
    replace (base + N.of_nat (0 + i) <? base + N.of_nat (length data))%N with true
      by (symmetry; apply N.ltb_lt; lia).
    cbn [andb]. f_equal. lia.
Qed.

Lemma slice_ext mem mem' base size :
  (∀ a, (base ≤ a < base + size)%N → mem' a = mem a) →
  slice mem' base size = slice mem base size.
Proof.
  intros H. unfold slice. apply map_ext_in. intros i Hi.
  apply in_seq in Hi. apply H. lia.
Qed.

Lemma slice_kernel mem paddr size :
  slice (kernel_view mem) (KERNEL_OFFSET + paddr) size = slice mem paddr size.
Proof.
  unfold slice. apply map_ext. intros i. unfold kernel_view. f_equal. lia.
Qed.

(** ** Loaded modules *)

(** The module [m] holds [d], in pages of its own. *)
Definition holds (s : lstate) (m : module) (d : list N) : Prop :=
  ∃ pages, (m_paddr m, pages) ∈ l_log s ∧
    (m_size m ≤ pages * PAGE)%N ∧
    m_vaddr m = (KERNEL_OFFSET + m_paddr m)%N ∧
    slice (l_mem s) (m_paddr m) (m_size m) = d.

Lemma round_up_enough n : (n ≤ ((n + PAGE - 1) / PAGE) * PAGE)%N.
Proof.
  rewrite page_4096.
  pose proof (N.div_mod (n + 4096 - 1) 4096 ltac:(lia)) as H.
  pose proof (N.mod_lt (n + 4096 - 1) 4096 ltac:(lia)). lia.
Qed.

Lemma open_name_some v n e :
  open_name v n = Some e → e ∈ v ∧ e_name e = n.
Proof.
  induction v as [|x v IH]; cbn [open_name]; intros H; [discriminate|].
  destruct (bool_decide (e_name x = n)) eqn:B.
  - apply bool_decide_eq_true in B. inversion H; subst. split; [left|reflexivity].
  - destruct (IH H) as [? ?]. split; [right; assumption|assumption].
Qed.

Lemma open_name_in v e :
  NoDup (map e_name v) → e ∈ v → open_name v (e_name e) = Some e.
Proof.
  induction v as [|x v IH]; intros ND Hin; [inversion Hin|].
  cbn [map] in ND. apply NoDup_cons in ND as [Hn ND]. cbn [open_name].
  apply elem_of_cons in Hin as [-> | Hin].
  - rewrite bool_decide_eq_true_2 by reflexivity. reflexivity.
  - rewrite bool_decide_eq_false_2; [apply IH; assumption|].
    intros E. apply Hn. rewrite E.
    apply elem_of_list_In. apply in_map. apply elem_of_list_In. exact Hin.
Qed.

Lemma module_name_new n v p s :
  length n < 32 → module_name (module_new n v p s) = n.
Proof.
  intros H. unfold module_name, module_new. cbn [m_len m_name].
  assert (E : min (length n) MAX_NAME_LEN = length n) by (unfold MAX_NAME_LEN; lia).
  rewrite E. rewrite (firstn_all n). rewrite take_app. reflexivity.
Qed.

Lemma load_binary_spec pick v n s m s' :
  good_firmware pick →
  load_binary pick v n s = Some (m, s') →
  l_mods s' = l_mods s ∧
  (∀ m0 d, holds s m0 d → holds s' m0 d) ∧
  ∃ e, open_name v n = Some e ∧ e_dir e = false ∧ holds s' m (e_data e) ∧
       (length (utf8 n) < 32 → module_name m = utf8 n).
Proof.
  intros G. unfold load_binary, locate_binary, allocate_pages.
  destruct (open_name v n) as [e|] eqn:O; [|discriminate].
  destruct (e_dir e) eqn:D; [discriminate|].
  set (pg := ((N.of_nat (length (e_data e)) + PAGE - 1) / PAGE)%N).
  destruct (pick (l_log s) pg) as [base|] eqn:P; [|discriminate].
  cbn [l_mem l_log l_mods]. intros H. inversion H; subst; clear H.
  cbn [l_mods]. split; [reflexivity|]. split.
  - intros m0 d (pages & Hin & Hsz & Hv & Hs). exists pages.
    cbn [l_log l_mem]. split; [right; exact Hin|]. split; [exact Hsz|]. split; [exact Hv|].
    rewrite <- Hs. apply slice_ext. intros a Ha. unfold store, clear.
    pose proof (G _ _ _ P _ _ Hin a) as Dis.
    pose proof (round_up_enough (N.of_nat (length (e_data e)))) as RU. fold pg in RU.
    rewrite page_4096 in *.
    assert (Hno : ¬ (base ≤ a < base + pg * 4096)%N).
    { intros Hb. apply Dis; [exact Hb|lia]. }
    destruct ((base <=? a) && (a <? base + N.of_nat (length (e_data e))))%N eqn:B1.
    { apply andb_true_iff in B1 as [B1 B2]. apply N.leb_le in B1. apply N.ltb_lt in B2.
      exfalso. apply Hno. lia. }
    destruct ((base <=? a) && (a <? base + pg * 4096))%N eqn:B3; [|reflexivity].
    apply andb_true_iff in B3 as [B3 B4]. apply N.leb_le in B3. apply N.ltb_lt in B4.
    exfalso. apply Hno. lia.
  - exists e. split; [reflexivity|]. split; [exact D|]. split.
    + exists pg. cbn [l_log l_mem module_new m_paddr m_size m_vaddr].
      split; [left|]. split; [apply round_up_enough|]. split; [reflexivity|].
      apply slice_store.
    + intros L. apply module_name_new. exact L.
Qed.

(** A named module of the list that holds the contents [d]. *)
Definition loaded (s : lstate) (nm : list N) (d : list N) : Prop :=
  ∃ m, (nm, m) ∈ l_mods s ∧ holds s m d.

(** What loading keeps. *)
Definition keeps (s s' : lstate) : Prop :=
  (∃ l, l_mods s' = l_mods s ++ l) ∧ (∀ m0 d, holds s m0 d → holds s' m0 d).

Lemma keeps_refl s : keeps s s.
Proof. split; [exists []; rewrite app_nil_r; reflexivity|auto]. Qed.

Lemma keeps_trans a b c : keeps a b → keeps b c → keeps a c.
Proof.
  intros [[l1 E1] H1] [[l2 E2] H2]. split; [|auto].
  exists (l1 ++ l2). rewrite E2, E1, app_assoc. reflexivity.
Qed.

Lemma keeps_loaded s s' nm d : keeps s s' → loaded s nm d → loaded s' nm d.
Proof.
  intros [[l E] H] (m & Hin & Hh). exists m. split; [|auto].
  rewrite E. apply elem_of_app. left. exact Hin.
Qed.

(** Every module of the list is a file of the volumes [vs]. *)
Definition sound (vs : list volume) (s : lstate) : Prop :=
  ∀ nm m, (nm, m) ∈ l_mods s →
    module_name m = nm ∧ length nm < 32 ∧ nm ≠ s_loader ∧
    ∃ n d, has_file vs n d ∧ utf8 n = nm ∧ holds s m d.

Lemma holds_mods s l m d :
  holds (LState (l_mem s) (l_log s) l) m d ↔ holds s m d.
Proof. reflexivity. Qed.

Lemma load_entry_spec pick vs v e s s' :
  good_firmware pick → v ∈ vs → sound vs s →
  load_entry pick v e s = Some s' →
  keeps s s' ∧ sound vs s' ∧
  (e_dir e = false → usable (to_chars (e_name e)) →
   ∃ e', open_name v (to_chars (e_name e)) = Some e' ∧
         loaded s' (utf8 (to_chars (e_name e))) (e_data e')).
Proof.
  intros G Hv S. unfold load_entry.
  destruct (e_dir e) eqn:D.
  { intros H. inversion H; subst. split; [apply keeps_refl|]. split; [exact S|discriminate]. }
  set (n := to_chars (e_name e)).
  destruct (bool_decide (utf8 n ≠ s_loader) && (length (utf8 n) <? MAX_NAME_LEN)) eqn:B.
  2:{ intros H. inversion H; subst. split; [apply keeps_refl|]. split; [exact S|].
      intros _ [U1 U2]. exfalso. apply andb_false_iff in B as [B|B].
      - apply bool_decide_eq_false in B. apply B. exact U2.
      - apply Nat.ltb_ge in B. unfold MAX_NAME_LEN in B. lia. }
  apply andb_true_iff in B as [B1 B2]. apply bool_decide_eq_true in B1.
  apply Nat.ltb_lt in B2. unfold MAX_NAME_LEN in B2.
  destruct (load_binary pick v n s) as [[m s1]|] eqn:L; [|discriminate].
  intros H. inversion H; subst; clear H.
  destruct (load_binary_spec _ _ _ _ _ _ G L) as (Em & Hk & e' & O & De & Hh & Hnm).
  assert (K : keeps s (LState (l_mem s1) (l_log s1) (l_mods s1 ++ [(utf8 n, m)]))).
  { split; cbn [l_mods].
    - exists [(utf8 n, m)]. rewrite Em. reflexivity.
    - intros m0 d H0. apply holds_mods. apply Hk. exact H0. }
  split; [exact K|]. split.
  - intros nm m0 Hin. cbn [l_mods] in Hin. apply elem_of_app in Hin as [Hin|Hin].
    + rewrite Em in Hin. destruct (S _ _ Hin) as (A1 & A2 & A3 & n0 & d & F & U & Hd).
      split; [exact A1|]. split; [exact A2|]. split; [exact A3|].
      exists n0, d. split; [exact F|]. split; [exact U|]. apply holds_mods. apply Hk. exact Hd.
    + apply elem_of_list_singleton in Hin. inversion Hin; subst.
      split; [apply Hnm; exact B2|]. split; [exact B2|]. split; [exact B1|].
      destruct (open_name_some _ _ _ O) as [Hin' En].
      exists (e_name e'), (e_data e'). split.
      { exists v. split; [exact Hv|]. destruct e' as [a b c]. cbn in *. subst b. exact Hin'. }
      split; [rewrite En; reflexivity|]. apply holds_mods. exact Hh.
  - intros _ _. exists e'. split; [exact O|]. exists m. split.
    + cbn [l_mods]. apply elem_of_app. right. apply elem_of_list_singleton. reflexivity.
    + apply holds_mods. exact Hh.
Qed.

Lemma load_loop_spec pick vs v fuel rest s s' :
  good_firmware pick → v ∈ vs → sound vs s →
  load_loop pick v fuel rest s = Some s' →
  keeps s s' ∧ sound vs s' ∧
  (length rest ≤ fuel → (∀ e, e ∈ rest → length (e_name e) ≤ 87) →
   ∀ e, e ∈ rest → e_dir e = false → usable (to_chars (e_name e)) →
   ∃ e', open_name v (to_chars (e_name e)) = Some e' ∧
         loaded s' (utf8 (to_chars (e_name e))) (e_data e')).
Proof.
  intros G Hv. revert rest s. induction fuel as [|k IH]; intros rest s S H.
  - cbn [load_loop] in H. inversion H; subst. split; [apply keeps_refl|]. split; [exact S|].
    intros Hl _ e He. destruct rest; [inversion He|cbn [length] in Hl; lia].
  - cbn [load_loop] in H. unfold load_round, read_entry in H. destruct rest as [|e rest].
    + destruct (IH _ _ S H) as (K & S' & C). split; [exact K|]. split; [exact S'|].
      intros _ _ e He. inversion He.
    + destruct (decide (80 + 2 * (length (e_name e) + 1) ≤ MAX_FILE_INFO_SIZE)) as [Fit|NF].
      * destruct (load_entry pick v e s) as [s1|] eqn:L; [|discriminate].
        destruct (load_entry_spec _ _ _ _ _ _ G Hv S L) as (K1 & S1 & C1).
        destruct (IH _ _ S1 H) as (K2 & S2 & C2).
        split; [eapply keeps_trans; eassumption|]. split; [exact S2|].
        intros Hl Hn x Hx Dx Ux. apply elem_of_cons in Hx as [-> | Hx].
        -- destruct (C1 Dx Ux) as (e' & O & Ld). exists e'. split; [exact O|].
           eapply keeps_loaded; eassumption.
        -- apply C2; try assumption.
           ++ cbn [length] in Hl. lia.
           ++ intros y Hy. apply Hn. right. exact Hy.
      * destruct (IH _ _ S H) as (K & S' & C). split; [exact K|]. split; [exact S'|].
        intros _ Hn. exfalso. apply NF. pose proof (Hn e ltac:(left)).
        unfold MAX_FILE_INFO_SIZE. lia.
Qed.

Lemma to_chars_plain n : plain n → to_chars n = n.
Proof.
  unfold to_chars. induction 1 as [|u n Hu _ IH]; cbn [List.filter]; [reflexivity|].
  assert (B : is_char u = true).
  { unfold is_char. apply orb_true_iff.
    destruct Hu; [left; apply N.ltb_lt|right; apply N.leb_le]; assumption. }
  rewrite B, IH. reflexivity.
Qed.

Lemma load_fuel_spec pick vs v fuel s s' :
  good_firmware pick → v ∈ vs → sound vs s →
  load_loop pick v fuel v s = Some s' →
  keeps s s' ∧ sound vs s' ∧
  (32 ≤ fuel → readable v → ∀ n d, Entry n false d ∈ v → usable n → loaded s' (utf8 n) d).
Proof.
  intros G Hv S H. destruct (load_loop_spec _ _ _ _ _ _ _ G Hv S H) as (K & S' & C).
  split; [exact K|]. split; [exact S'|].
  intros Hf (Hl & Hn & ND) n d Hin U. 
  destruct (Hn _ Hin) as [_ Pl]. cbn [e_name] in Pl.
  pose proof (to_chars_plain _ Pl) as T.
  destruct (C ltac:(lia) (λ e He, proj1 (Hn e He)) _ Hin eq_refl) as (e' & O & Ld);
    cbn [e_name] in *; rewrite T in *; [exact U|].
  pose proof (open_name_in _ _ ND Hin) as O2. cbn [e_name] in O2.
  rewrite O2 in O. inversion O; subst. exact Ld.
Qed.

Lemma load_modules_spec pick vs v s s' :
  good_firmware pick → v ∈ vs → sound vs s →
  load_modules pick v s = Some s' →
  keeps s s' ∧ sound vs s' ∧
  (readable v → ∀ n d, Entry n false d ∈ v → usable n → loaded s' (utf8 n) d).
Proof.
  intros G Hv S H. unfold load_modules in H.
  assert (Hf : 32 ≤ MAX_MODULES) by (unfold MAX_MODULES; lia).
  revert H Hf. generalize MAX_MODULES. intros fuel H Hf.
  destruct (load_fuel_spec _ _ _ _ _ _ G Hv S H) as (K & S' & C).
  split; [exact K|]. split; [exact S'|]. apply C. exact Hf.
Qed.

Lemma load_all_spec pick us vs s s' :
  good_firmware pick → (∀ v, v ∈ vs → v ∈ us) → sound us s →
  load_all pick vs s = Some s' →
  keeps s s' ∧ sound us s' ∧
  (∀ v, v ∈ vs → readable v → ∀ n d, Entry n false d ∈ v → usable n → loaded s' (utf8 n) d).
Proof.
  intros G. revert s. induction vs as [|v vs IH]; intros s Sub S H; cbn [load_all] in H.
  - inversion H; subst. split; [apply keeps_refl|]. split; [exact S|]. intros v Hv. inversion Hv.
  - destruct (load_modules pick v s) as [s1|] eqn:L; [|discriminate].
    destruct (load_modules_spec _ _ _ _ _ G (Sub _ ltac:(left)) S L) as (K1 & S1 & C1).
    destruct (IH _ (λ x Hx, Sub x ltac:(right; exact Hx)) S1 H) as (K2 & S2 & C2).
    split; [eapply keeps_trans; eassumption|]. split; [exact S2|].
    intros w Hw R n d Hin U. apply elem_of_cons in Hw as [-> | Hw].
    + eapply keeps_loaded; [exact K2|]. apply C1; assumption.
    + eapply C2; eassumption.
Qed.

(** ** The module list *)

Lemma push_all_some args ms r :
  push_all args ms = Some r → r = args ++ ms ∧ (length args ≤ 32 → length r ≤ 32).
Proof.
  revert args. induction ms as [|m ms IH]; intros args H; cbn [push_all] in H.
  - inversion H; subst. rewrite app_nil_r. split; [reflexivity|auto].
  - unfold push in H. destruct (length args <? MAX_MODULES) eqn:L; [|discriminate].
    apply Nat.ltb_lt in L. unfold MAX_MODULES in L.
    destruct (IH _ H) as [-> Hl]. rewrite <- app_assoc. split; [reflexivity|].
    intros _. rewrite <- app_assoc in Hl. apply Hl. rewrite app_length. cbn [length]. lia.
Qed.

Lemma push_all_fits args ms :
  length args + length ms ≤ 32 → push_all args ms = Some (args ++ ms).
Proof.
  revert args. induction ms as [|m ms IH]; intros args H; cbn [push_all].
  - rewrite app_nil_r. reflexivity.
  - unfold push. cbn [length] in H.
    replace (length args <? MAX_MODULES) with true
      by (symmetry; apply Nat.ltb_lt; unfold MAX_MODULES; lia).
    rewrite IH by (rewrite app_length; cbn [length]; lia).
    rewrite <- app_assoc. reflexivity.
Qed.

Lemma in_kernel_modules mods ms :
  kernel_modules mods = Some ms →
  ∀ m, m ∈ ms ↔ ∃ nm, (nm, m) ∈ mods.
Proof.
  unfold kernel_modules. intros H m. apply push_all_some in H as [-> _].
  cbn [app]. rewrite elem_of_list_In, in_app_iff, !in_map_iff. split.
  - intros [([nm x] & <- & Hf)|([nm x] & <- & Hf)]; apply filter_In in Hf as [Hf _];
      exists nm; apply elem_of_list_In; exact Hf.
  - intros [nm Hin]. apply elem_of_list_In in Hin.
    destruct (decide (nm = s_kernel)) as [E|E]; [left|right]; exists (nm, m);
      (split; [reflexivity|]); apply filter_In; (split; [exact Hin|]);
      apply bool_decide_eq_true; exact E.
Qed.

Lemma blob_of_acc nm mods acc r :
  fold_left (λ acc (p : list N * module), if bool_decide (p.1 = nm) then Some p.2 else acc) mods acc = Some r →
  acc = Some r ∨ (nm, r) ∈ mods.
Proof.
  revert acc. induction mods as [|[a m] mods IH]; intros acc H; cbn [fold_left] in H.
  - left. exact H.
  - destruct (IH _ H) as [E|E]; [|right; right; exact E].
    cbn [fst snd] in E. destruct (bool_decide (a = nm)) eqn:B; [|left; exact E].
    apply bool_decide_eq_true in B. subst. inversion E; subst. right. left.
Qed.

Lemma blob_of_in nm mods r : blob_of nm mods = Some r → (nm, r) ∈ mods.
Proof. intros H. destruct (blob_of_acc _ _ _ _ H); [discriminate|assumption]. Qed.

Lemma blob_of_keeps nm mods x :
  ∃ r, fold_left (λ acc (p : list N * module), if bool_decide (p.1 = nm) then Some p.2 else acc) mods (Some x)
       = Some (r : module).
Proof.
  revert x. induction mods as [|[a m] mods IH]; intros x; cbn [fold_left].
  - exists x. reflexivity.
  - destruct (bool_decide _); apply IH.
Qed.

Lemma blob_of_some nm mods m acc :
  (nm, m) ∈ mods →
  ∃ r, fold_left (λ acc (p : list N * module), if bool_decide (p.1 = nm) then Some p.2 else acc) mods acc = Some r.
Proof.
  revert acc. induction mods as [|[a x] mods IH]; intros acc Hin; [inversion Hin|].
  cbn [fold_left fst snd]. apply elem_of_cons in Hin as [E|Hin]; [|apply IH; exact Hin].
  inversion E; subst. rewrite bool_decide_eq_true_2 by reflexivity. apply blob_of_keeps.
Qed.

Lemma find_binary_acc nm ms acc r :
  fold_left (λ acc m, if bool_decide (module_name m = nm) then Some m else acc) ms acc = Some r →
  acc = Some r ∨ (r ∈ ms ∧ module_name r = nm).
Proof.
  revert acc. induction ms as [|m ms IH]; intros acc H; cbn [fold_left] in H.
  - left. exact H.
  - destruct (IH _ H) as [E|[E1 E2]]; [|right; split; [right; exact E1|exact E2]].
    destruct (bool_decide (module_name m = nm)) eqn:B; [|left; exact E].
    apply bool_decide_eq_true in B. inversion E; subst. right. split; [left|reflexivity].
Qed.

Lemma find_binary_in nm ms r :
  find_binary ms nm = Some r → r ∈ ms ∧ module_name r = nm.
Proof. intros H. destruct (find_binary_acc _ _ _ _ H); [discriminate|assumption]. Qed.

Lemma find_binary_keeps nm ms x :
  ∃ r, fold_left (λ acc m, if bool_decide (module_name m = nm) then Some m else acc) ms (Some x)
       = Some r.
Proof.
  revert x. induction ms as [|m ms IH]; intros x; cbn [fold_left].
  - exists x. reflexivity.
  - destruct (bool_decide _); apply IH.
Qed.

Lemma find_binary_some ms m : m ∈ ms → ∃ r, find_binary ms (module_name m) = Some r.
Proof.
  unfold find_binary. generalize (@None module). induction ms as [|x ms IH]; intros acc Hin;
    [inversion Hin|].
  cbn [fold_left]. apply elem_of_cons in Hin as [-> | Hin]; [|apply IH; exact Hin].
  rewrite bool_decide_eq_true_2 by reflexivity. apply find_binary_keeps.
Qed.

Lemma find_module_in nm ms r :
  find_module ms nm = Some r → r ∈ ms ∧ module_name r = nm.
Proof.
  induction ms as [|x ms IH]; cbn [find_module]; intros H; [discriminate|].
  destruct (bool_decide (module_name x = nm)) eqn:B.
  - apply bool_decide_eq_true in B. inversion H; subst. split; [left|reflexivity].
  - destruct (IH H). split; [right; assumption|assumption].
Qed.

Lemma find_module_some ms m : m ∈ ms → ∃ r, find_module ms (module_name m) = Some r.
Proof.
  induction ms as [|x ms IH]; intros Hin; [inversion Hin|]. cbn [find_module].
  destruct (bool_decide (module_name x = module_name m)) eqn:B; [eexists; reflexivity|].
  apply elem_of_cons in Hin as [-> | Hin]; [|apply IH; exact Hin].
  apply bool_decide_eq_false in B. contradiction.
Qed.

(** ** The handover *)

Lemma holds_slices s m d :
  holds s m d → as_slice (l_mem s) m = d ∧ as_pslice (l_mem s) m = d.
Proof.
  intros (pg & _ & _ & Hv & Hs). unfold as_slice, as_pslice.
  rewrite Hv, slice_kernel. split; exact Hs.
Qed.

Lemma sound_empty vs mem : sound vs (LState mem [] []).
Proof. intros nm m H. inversion H. Qed.

Lemma boot_spec pick mem vs h :
  good_firmware pick → boot pick mem vs = Some h →
  ∃ s, sound vs s ∧ h_mem h = l_mem s ∧
    (∃ k, (s_kernel, k) ∈ l_mods s ∧ h_kernel h = as_pslice (l_mem s) k) ∧
    (∃ c, (s_cmdline, c) ∈ l_mods s ∧ h_cmdline h = as_pslice (l_mem s) c) ∧
    kernel_modules (l_mods s) = Some (h_modules h) ∧
    (∀ v, v ∈ vs → readable v → ∀ n d, Entry n false d ∈ v → usable n → loaded s (utf8 n) d).
Proof.
  intros G H. unfold boot in H.
  destruct (load_all pick vs (LState mem [] [])) as [s|] eqn:L; [|discriminate].
  destruct (blob_of s_kernel (l_mods s)) as [k|] eqn:Bk; [|discriminate].
  destruct (blob_of s_cmdline (l_mods s)) as [c|] eqn:Bc; [|discriminate].
  destruct (kernel_modules (l_mods s)) as [ms|] eqn:KM; [|discriminate].
  inversion H; subst; clear H.
  destruct (load_all_spec _ vs _ _ _ G (λ _ x, x) (sound_empty vs mem) L) as (_ & S & C).
  exists s. cbn [h_mem h_kernel h_cmdline h_modules].
  split; [exact S|]. split; [reflexivity|].
  split; [exists k; split; [apply blob_of_in; exact Bk|reflexivity]|].
  split; [exists c; split; [apply blob_of_in; exact Bc|reflexivity]|].
  split; [exact KM|exact C].
Qed.

(** Every module is a file. *)
Lemma boot_module pick mem vs h m :
  good_firmware pick → boot pick mem vs = Some h → m ∈ h_modules h →
  length (module_name m) < 32 ∧ module_name m ≠ s_loader ∧
  ∃ n, has_file vs n (as_slice (h_mem h) m) ∧ utf8 n = module_name m.
Proof.
  intros G H Hm. destruct (boot_spec _ _ _ _ G H) as (s & S & Em & _ & _ & KM & _).
  apply (proj1 (in_kernel_modules _ _ KM m)) in Hm. destruct Hm as [nm Hin].
  destruct (S _ _ Hin) as (A1 & A2 & A3 & n & d & F & U & Hd).
  destruct (holds_slices _ _ _ Hd) as [Sl _]. rewrite A1.
  split; [exact A2|]. split; [exact A3|]. exists n. rewrite Em, Sl. split; assumption.
Qed.

Lemma boot_complete pick mem vs h v n d :
  good_firmware pick → boot pick mem vs = Some h →
  v ∈ vs → readable v → Entry n false d ∈ v → usable n →
  ∃ m, m ∈ h_modules h ∧ module_name m = utf8 n ∧ as_slice (h_mem h) m = d.
Proof.
  intros G H Hv R Hin U. destruct (boot_spec _ _ _ _ G H) as (s & S & Em & _ & _ & KM & C).
  destruct (C _ Hv R _ _ Hin U) as (m & Hm & Hd). exists m.
  split; [apply (in_kernel_modules _ _ KM); eexists; exact Hm|].
  destruct (S _ _ Hm) as (A1 & _). split; [exact A1|].
  rewrite Em. apply (holds_slices _ _ _ Hd).
Qed.

Lemma filter_kernel_first mods k :
  (s_kernel, k) ∈ mods →
  ∃ m rest, List.filter (λ p : list N * module, bool_decide (p.1 = s_kernel)) mods
            = (s_kernel, m) :: rest.
Proof.
  intros Hin.
  destruct (List.filter (λ p : list N * module, bool_decide (p.1 = s_kernel)) mods)
    as [|[a m] rest] eqn:F.
  - exfalso. assert (In (s_kernel, k) []) as X.
    { rewrite <- F. apply filter_In. split; [apply elem_of_list_In; exact Hin|].
      apply bool_decide_eq_true. reflexivity. }
    exact X.
  - assert (In (a, m) ((a, m) :: rest)) as X by (left; reflexivity).
    rewrite <- F in X. apply filter_In in X as [_ X]. apply bool_decide_eq_true in X.
    cbn [fst] in X. subst. eexists _, _. reflexivity.
Qed.

Lemma boot_kernel_first pick mem vs h :
  good_firmware pick → boot pick mem vs = Some h →
  ∃ k rest, h_modules h = k :: rest ∧ module_name k = s_kernel.
Proof.
  intros G H. destruct (boot_spec _ _ _ _ G H) as (s & S & _ & (k & Hk & _) & _ & KM & _).
  destruct (filter_kernel_first _ _ Hk) as (m & rest & F).
  unfold kernel_modules in KM. rewrite F in KM. cbn [map snd app] in KM.
  apply push_all_some in KM as [KM _]. cbn [app] in KM.
  eexists m, _. split; [exact KM|].
  assert (Hin : (s_kernel, m) ∈ l_mods s).
  { apply elem_of_list_In.
    apply (filter_In (λ p : list N * module, bool_decide (p.1 = s_kernel))).
    rewrite F. left. reflexivity. }
  apply (S _ _ Hin).
Qed.

Lemma boot_at_most pick mem vs h :
  boot pick mem vs = Some h → length (h_modules h) ≤ 32.
Proof.
  intros H. unfold boot in H.
  destruct (load_all pick vs _) as [s|]; [|discriminate].
  destruct (blob_of s_kernel (l_mods s)); [|discriminate].
  destruct (blob_of s_cmdline (l_mods s)); [|discriminate].
  destruct (kernel_modules (l_mods s)) as [ms|] eqn:KM; [|discriminate].
  inversion H; subst. cbn [h_modules]. apply push_all_some in KM as [_ KM].
  apply KM. cbn [length]. lia.
Qed.

(** The blobs of the boot loader are files too. *)
Lemma boot_blobs pick mem vs h :
  good_firmware pick → boot pick mem vs = Some h →
  (∃ n, has_file vs n (h_kernel h) ∧ utf8 n = s_kernel) ∧
  (∃ n, has_file vs n (h_cmdline h) ∧ utf8 n = s_cmdline).
Proof.
  intros G H.
  destruct (boot_spec _ _ _ _ G H) as (s & S & _ & (k & Hk & Ek) & (c & Hc & Ec) & _ & _).
  split.
  - destruct (S _ _ Hk) as (_ & _ & _ & n & d & F & U & Hd). exists n.
    rewrite Ek, (proj2 (holds_slices _ _ _ Hd)). split; assumption.
  - destruct (S _ _ Hc) as (_ & _ & _ & n & d & F & U & Hd). exists n.
    rewrite Ec, (proj2 (holds_slices _ _ _ Hd)). split; assumption.
Qed.

(** ** Success *)

Lemma load_entry_ok pick v e s :
  (∀ log p, pick log p ≠ None) → NoDup (map e_name v) → e ∈ v → plain (e_name e) →
  ∃ s', load_entry pick v e s = Some s' ∧
        length (l_mods s') ≤ S (length (l_mods s)) ∧
        (e_dir e = true → length (l_mods s') = length (l_mods s)).
Proof.
  intros R ND Hin Pl. unfold load_entry. destruct (e_dir e) eqn:D.
  { exists s. split; [reflexivity|]. split; [lia|reflexivity]. }
  rewrite (to_chars_plain _ Pl).
  destruct (bool_decide _ && _).
  2:{ exists s. split; [reflexivity|]. split; [lia|discriminate]. }
  unfold load_binary, locate_binary, allocate_pages.
  rewrite (open_name_in _ _ ND Hin), D.
  destruct (pick _ _) as [b|] eqn:P; [|exfalso; eapply R; exact P].
  eexists. split; [reflexivity|]. cbn [l_mods]. rewrite app_length. cbn [length].
  split; [lia|discriminate].
Qed.

Definition files (v : list entry) : nat := length (List.filter (λ e, negb (e_dir e)) v).

Lemma load_loop_ok pick v fuel rest s :
  (∀ log p, pick log p ≠ None) → NoDup (map e_name v) →
  (∀ e, e ∈ rest → e ∈ v ∧ plain (e_name e)) →
  ∃ s', load_loop pick v fuel rest s = Some s' ∧
        length (l_mods s') ≤ length (l_mods s) + files rest.
Proof.
  intros R ND. revert rest s. induction fuel as [|k IH]; intros rest s H; cbn [load_loop].
  - exists s. split; [reflexivity|lia].
  - unfold load_round, read_entry. destruct rest as [|e rest].
    + apply IH. exact H.
    + destruct (decide _).
      * destruct (H e ltac:(left)) as [He Pl].
        destruct (load_entry_ok pick v e s R ND He Pl) as (s1 & -> & L1 & L2).
        destruct (IH rest s1 (λ x Hx, H x ltac:(right; exact Hx))) as (s2 & -> & L3).
        exists s2. split; [reflexivity|]. unfold files in *. cbn [List.filter].
        destruct (e_dir e); cbn [negb length]; [rewrite (L2 eq_refl) in L3|]; lia.
      * apply IH. exact H.
Qed.

Lemma load_all_ok pick vs s :
  (∀ log p, pick log p ≠ None) → (∀ v, v ∈ vs → readable v) →
  ∃ s', load_all pick vs s = Some s' ∧
        length (l_mods s') ≤ length (l_mods s) + files (concat vs).
Proof.
  intros R. revert s. induction vs as [|v vs IH]; intros s H; cbn [load_all].
  - exists s. split; [reflexivity|lia].
  - destruct (H v ltac:(left)) as (_ & Hn & ND).
    destruct (load_loop_ok pick v MAX_MODULES v s R ND (λ e He, conj He (proj2 (Hn e He))))
      as (s1 & E1 & L1). unfold load_modules. rewrite E1.
    destruct (IH s1 (λ x Hx, H x ltac:(right; exact Hx))) as (s2 & -> & L2).
    exists s2. split; [reflexivity|]. unfold files in *. cbn [concat].
    rewrite List.filter_app, app_length. lia.
Qed.

Lemma filter_split_length mods :
  length (map snd (List.filter (λ p : list N * module, bool_decide (p.1 = s_kernel)) mods) ++
          map snd (List.filter (λ p : list N * module, bool_decide (p.1 ≠ s_kernel)) mods))
  = length mods.
Proof.
  rewrite app_length, !map_length. induction mods as [|[a m] mods IH]; [reflexivity|].
  cbn [List.filter fst].
  destruct (decide (a = s_kernel)) as [E|E].
  - rewrite bool_decide_eq_true_2 by exact E.
    rewrite (bool_decide_eq_false_2 (a ≠ s_kernel)) by (intros X; apply X; exact E).
    cbn [length]. lia.
  - rewrite bool_decide_eq_false_2 by exact E.
    rewrite (bool_decide_eq_true_2 (a ≠ s_kernel)) by exact E.
    cbn [length]. lia.
Qed.

Lemma boot_ok pick mem vs k c dk dc :
  good_firmware pick → (∀ log p, pick log p ≠ None) →
  (∀ v, v ∈ vs → readable v) →
  files (concat vs) ≤ 32 →
  has_file vs k dk → utf8 k = s_kernel →
  has_file vs c dc → utf8 c = s_cmdline →
  ∃ h, boot pick mem vs = Some h.
Proof.
  intros G R Rd Few (vk & Hvk & Hk) Ek (vc & Hvc & Hc) Ec.
  destruct (load_all_ok pick vs (LState mem [] []) R Rd) as (s & L & Len).
  cbn [l_mods length] in Len.
  destruct (load_all_spec _ vs _ _ _ G (λ _ x, x) (sound_empty vs mem) L) as (_ & _ & C).
  unfold boot. rewrite L.
  destruct (C _ Hvk (Rd _ Hvk) _ _ Hk) as (mk & Hmk & _).
  { split; rewrite Ek; [vm_compute; lia|discriminate]. }
  destruct (C _ Hvc (Rd _ Hvc) _ _ Hc) as (mc & Hmc & _).
  { split; rewrite Ec; [vm_compute; lia|discriminate]. }
  rewrite Ek in Hmk. rewrite Ec in Hmc.
  destruct (blob_of_some _ _ _ None Hmk) as [rk Ek'].
  destruct (blob_of_some _ _ _ None Hmc) as [rc Ec'].
  unfold blob_of. rewrite Ek', Ec'.
  unfold kernel_modules. rewrite push_all_fits.
  - eexists. reflexivity.
  - rewrite filter_split_length. cbn [length]. lia.
Qed.
