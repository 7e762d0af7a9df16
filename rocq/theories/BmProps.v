(** C78: the programs on the boot volumes reach the kernel under their names
    and with their contents. *)
From Verif Require Import Base BmModel BmSpec BmProofs.

(** Whatever the kernel finds in its module list is a file of a boot volume,
    under the file's name and with the file's contents; the boot loader itself
    is not among them, and there are at most 32. *)
Theorem C78_contents pick mem vs h :
  good_firmware pick → boot pick mem vs = Some h →
  length (h_modules h) ≤ 32 ∧
  ∀ m, m ∈ h_modules h →
    module_name m ≠ s_loader ∧
    ∃ n, has_file vs n (as_slice (h_mem h) m) ∧ utf8 n = module_name m.
Proof.
  intros G H. split; [eapply boot_at_most; exact H|].
  intros m Hm. destruct (boot_module _ _ _ _ _ G H Hm) as (_ & A & B). split; assumption.
Qed.
Print Assumptions C78_contents.

(** The image that is started and the command line are files too, and the
    first module is called "kernel". *)
Theorem C78_kernel pick mem vs h :
  good_firmware pick → boot pick mem vs = Some h →
  (∃ n, has_file vs n (h_kernel h) ∧ utf8 n = s_kernel) ∧
  (∃ n, has_file vs n (h_cmdline h) ∧ utf8 n = s_cmdline) ∧
  ∃ k rest, h_modules h = k :: rest ∧ module_name k = s_kernel.
Proof.
  intros G H. destruct (boot_blobs _ _ _ _ G H) as [A B].
  split; [exact A|]. split; [exact B|]. eapply boot_kernel_first; eassumption.
Qed.
Print Assumptions C78_kernel.

(** On a readable volume every file with a usable name reaches the kernel. *)
Theorem C78_found_partial pick mem vs h v n d :
  good_firmware pick → boot pick mem vs = Some h →
  v ∈ vs → readable v → Entry n false d ∈ v → usable n →
  ∃ m, m ∈ h_modules h ∧ module_name m = utf8 n ∧ as_slice (h_mem h) m = d.
Proof. apply boot_complete. Qed.
Print Assumptions C78_found_partial.

(** If moreover all files of that name have the same contents, then both
    look-ups of the kernel, the one that prepares the data sections and the one
    that fills the address space, find these contents. *)
Theorem C78_start_partial pick mem vs h v n d :
  good_firmware pick → boot pick mem vs = Some h →
  v ∈ vs → readable v → Entry n false d ∈ v → usable n →
  (∀ n' d', has_file vs n' d' → utf8 n' = utf8 n → d' = d) →
  (∃ m, find_binary (h_modules h) (utf8 n) = Some m ∧ as_slice (h_mem h) m = d) ∧
  (∃ m, find_module (h_modules h) (utf8 n) = Some m ∧ as_slice (h_mem h) m = d).
Proof.
  intros G H Hv R Hin U Same.
  destruct (boot_complete _ _ _ _ _ _ _ G H Hv R Hin U) as (m & Hm & En & _).
  split.
  - destruct (find_binary_some _ _ Hm) as [r E]. rewrite En in E. exists r.
    split; [exact E|]. destruct (find_binary_in _ _ _ E) as [Hr Nr].
    destruct (boot_module _ _ _ _ _ G H Hr) as (_ & _ & n' & F & U').
    apply (Same n'); [exact F|]. rewrite U', Nr. reflexivity.
  - destruct (find_module_some _ _ Hm) as [r E]. rewrite En in E. exists r.
    split; [exact E|]. destruct (find_module_in _ _ _ E) as [Hr Nr].
    destruct (boot_module _ _ _ _ _ G H Hr) as (_ & _ & n' & F & U').
    apply (Same n'); [exact F|]. rewrite U', Nr. reflexivity.
Qed.
Print Assumptions C78_start_partial.

(** A name that no file has is not found. *)
Theorem C78_unknown pick mem vs h nm :
  good_firmware pick → boot pick mem vs = Some h →
  (∀ n d, has_file vs n d → utf8 n ≠ nm) →
  find_binary (h_modules h) nm = None ∧ find_module (h_modules h) nm = None.
Proof.
  intros G H No. split.
  - destruct (find_binary (h_modules h) nm) as [r|] eqn:E; [|reflexivity]. exfalso.
    destruct (find_binary_in _ _ _ E) as [Hr Nr].
    destruct (boot_module _ _ _ _ _ G H Hr) as (_ & _ & n' & F & U').
    apply (No _ _ F). rewrite U'. exact Nr.
  - destruct (find_module (h_modules h) nm) as [r|] eqn:E; [|reflexivity]. exfalso.
    destruct (find_module_in _ _ _ E) as [Hr Nr].
    destruct (boot_module _ _ _ _ _ G H Hr) as (_ & _ & n' & F & U').
    apply (No _ _ F). rewrite U'. exact Nr.
Qed.
Print Assumptions C78_unknown.

(** Process::load does not stop the kernel for a name that make_process found. *)
Theorem C78_lookups_agree ms nm :
  find_binary ms nm = None ↔ find_module ms nm = None.
Proof.
  split; intros H.
  - destruct (find_module ms nm) as [r|] eqn:E; [|reflexivity].
    destruct (find_module_in _ _ _ E) as [Hr Nr].
    destruct (find_binary_some _ _ Hr) as [x X]. congruence.
  - destruct (find_binary ms nm) as [r|] eqn:E; [|reflexivity].
    destruct (find_binary_in _ _ _ E) as [Hr Nr].
    destruct (find_module_some _ _ Hr) as [x X]. congruence.
Qed.
Print Assumptions C78_lookups_agree.

(** With a single kernel image on the volumes, the image that is started is the
    one that the kernel looks its symbols up in. *)
Theorem C78_symbols_partial pick mem vs h d :
  good_firmware pick → boot pick mem vs = Some h →
  (∀ n' d', has_file vs n' d' → utf8 n' = s_kernel → d' = d) →
  h_kernel h = d ∧ kernel_binary h = Some d.
Proof.
  intros G H Same. destruct (boot_blobs _ _ _ _ G H) as [(n & F & U) _].
  split; [eapply Same; eassumption|].
  destruct (boot_kernel_first _ _ _ _ G H) as (k & rest & E & Nk).
  unfold kernel_binary. rewrite E. f_equal.
  destruct (boot_module _ _ _ _ k G H) as (_ & _ & n' & F' & U'); [rewrite E; left|].
  eapply Same; [exact F'|]. rewrite U'. exact Nk.
Qed.
Print Assumptions C78_symbols_partial.

(** The machine starts when all volumes are readable, hold at most 32 files
    together, and a kernel and a command line are among them. *)
Theorem C78_starts_partial pick mem vs k c dk dc :
  good_firmware pick → (∀ log p, pick log p ≠ None) →
  (∀ v, v ∈ vs → readable v) →
  length (List.filter (λ e, negb (e_dir e)) (concat vs)) ≤ 32 →
  has_file vs k dk → utf8 k = s_kernel →
  has_file vs c dc → utf8 c = s_cmdline →
  ∃ h, boot pick mem vs = Some h.
Proof. apply boot_ok. Qed.
Print Assumptions C78_starts_partial.

(** ** Where the guards are needed *)

(** A firmware that hands out pages one after the other. *)
Definition ex_pick : allocator :=
  λ log _, Some (foldr (λ p acc, N.max (p.1 + p.2 * 4096) acc) 1048576 log)%N.

Lemma ex_pick_good : good_firmware ex_pick.
Proof.
  intros log pages base H b p Hin a Ha Hb. unfold ex_pick in H. inversion H; subst; clear H.
  assert (X : (b + p * 4096 ≤ foldr (λ p acc, N.max (p.1 + p.2 * 4096) acc) 1048576 log)%N).
  { clear Ha Hb. induction log as [|q log IH]; [inversion Hin|]. cbn [foldr].
    apply elem_of_cons in Hin as [<- | Hin]; [cbn [fst snd]; lia|].
    specialize (IH Hin). lia. }
  lia.
Qed.

(** Files: a kernel, a command line, "init", and directories. *)
Definition f_kernel (d : list N) : entry := Entry s_kernel false d.
Definition f_cmdline := Entry s_cmdline false [9%N].
Definition n_init : list N := [105; 110; 105; 116]%N.
Definition f_init (d : list N) : entry := Entry n_init false d.
Definition n_num (i : nat) : list N := [65; N.of_nat i + 97]%N.
Definition ex_dirs (k : nat) : volume := map (λ i, Entry (n_num i) true []) (seq 0 k).

Definition ex_vol1 : volume := [f_kernel [1; 2; 3]%N; f_cmdline] ++ ex_dirs 30 ++ [f_init [7; 8]%N].

(** Directories count: with 30 of them a third program is missed, without a
    word, although the kernel would have room for 30 more. *)
Theorem C78_found_refuted :
  ¬ (∀ pick mem vs h n d,
       good_firmware pick → boot pick mem vs = Some h → has_file vs n d → usable n →
       find_binary (h_modules h) (utf8 n) ≠ None).
Proof.
  intros F.
  assert (C : match boot ex_pick (λ _, 0%N) [ex_vol1] with
              | Some h => find_binary (h_modules h) (utf8 n_init) = None
              | None => False end) by (vm_compute; reflexivity).
  destruct (boot ex_pick (λ _, 0%N) [ex_vol1]) as [h|] eqn:B; [|exact C].
  apply (F _ _ _ _ n_init [7; 8]%N ex_pick_good B); [| |exact C].
  - exists ex_vol1. split; [left|]. apply elem_of_app. right. apply elem_of_app. right. left.
  - split; [vm_compute; lia|discriminate].
Qed.
Print Assumptions C78_found_refuted.

(** One file with a name of 88 characters hides all files after it. *)
Definition ex_vol2 : volume :=
  [f_kernel [1%N]; f_cmdline; Entry (replicate 88 97%N) false [5%N]; f_init [7; 8]%N].

Theorem C78_long_name_refuted :
  ¬ (∀ pick mem vs h v n d,
       good_firmware pick → boot pick mem vs = Some h →
       v ∈ vs → length v ≤ 32 → NoDup (map e_name v) → (∀ e, e ∈ v → plain (e_name e)) →
       Entry n false d ∈ v → usable n →
       find_binary (h_modules h) (utf8 n) ≠ None).
Proof.
  intros F.
  assert (C : match boot ex_pick (λ _, 0%N) [ex_vol2] with
              | Some h => find_binary (h_modules h) (utf8 n_init) = None
              | None => False end) by (vm_compute; reflexivity).
  destruct (boot ex_pick (λ _, 0%N) [ex_vol2]) as [h|] eqn:B; [|exact C].
  refine (F _ _ _ _ ex_vol2 n_init [7; 8]%N ex_pick_good B _ _ _ _ _ _ C).
  - left.
  - cbn. lia.
  - apply (bool_decide_unpack _). vm_compute. exact Logic.I.
  - intros e He. assert (A : Forall (λ e, Forall (λ u, (u < 55296)%N) (e_name e)) ex_vol2).
    { apply (bool_decide_unpack _). vm_compute. exact Logic.I. }
    apply (proj1 (stdpp.list.Forall_forall _ _) A) in He.
    eapply Forall_impl; [exact He|]. intros u Hu. left. exact Hu.
  - right. right. right. left.
  - split; [vm_compute; lia|discriminate].
Qed.
Print Assumptions C78_long_name_refuted.

(** Two volumes that both have a program "init" and a kernel. *)
Definition ex_vols3 : list volume :=
  [[f_kernel [1%N]; f_cmdline; f_init [7; 8]%N]; [f_kernel [2%N]; f_init [9%N]]].

(** The data sections come from one file and the rest from the other. *)
Theorem C78_start_refuted :
  ¬ (∀ pick mem vs h nm m1 m2,
       good_firmware pick → boot pick mem vs = Some h →
       (∀ v, v ∈ vs → readable v) →
       find_binary (h_modules h) nm = Some m1 → find_module (h_modules h) nm = Some m2 →
       as_slice (h_mem h) m1 = as_slice (h_mem h) m2).
Proof.
  intros F.
  assert (C : match boot ex_pick (λ _, 0%N) ex_vols3 with
              | Some h =>
                  match find_binary (h_modules h) (utf8 n_init),
                        find_module (h_modules h) (utf8 n_init) with
                  | Some m1, Some m2 =>
                      as_slice (h_mem h) m1 = [9]%N ∧ as_slice (h_mem h) m2 = [7; 8]%N
                  | _, _ => False end
              | None => False end) by (vm_compute; split; reflexivity).
  destruct (boot ex_pick (λ _, 0%N) ex_vols3) as [h|] eqn:B; [|exact C].
  destruct (find_binary (h_modules h) (utf8 n_init)) as [m1|] eqn:E1; [|exact C].
  destruct (find_module (h_modules h) (utf8 n_init)) as [m2|] eqn:E2; [|exact C].
  destruct C as [C1 C2].
  assert (X : as_slice (h_mem h) m1 = as_slice (h_mem h) m2).
  { refine (F _ _ _ _ _ _ _ ex_pick_good B _ E1 E2).
    intros v Hv.
    assert (A : Forall (λ v : volume, length v ≤ 32 ∧ NoDup (map e_name v) ∧
                 Forall (λ e, length (e_name e) ≤ 87 ∧ Forall (λ u, (u < 55296)%N) (e_name e)) v)
               ex_vols3).
    { apply (bool_decide_unpack _). vm_compute. exact Logic.I. }
    apply (proj1 (stdpp.list.Forall_forall _ _) A) in Hv as (L & ND & Al).
    split; [exact L|]. split; [|exact ND]. intros e He.
    apply (proj1 (stdpp.list.Forall_forall _ _) Al) in He as [He1 He2].
    split; [exact He1|]. eapply Forall_impl; [exact He2|]. intros u Hu. left. exact Hu. }
  rewrite C1, C2 in X. discriminate.
Qed.
Print Assumptions C78_start_refuted.

(** The symbols come from another image than the one that runs. *)
Theorem C78_symbols_refuted :
  ¬ (∀ pick mem vs h,
       good_firmware pick → boot pick mem vs = Some h → kernel_binary h = Some (h_kernel h)).
Proof.
  intros F.
  assert (C : match boot ex_pick (λ _, 0%N) ex_vols3 with
              | Some h => h_kernel h = [2]%N ∧ kernel_binary h = Some [1]%N
              | None => False end) by (vm_compute; split; reflexivity).
  destruct (boot ex_pick (λ _, 0%N) ex_vols3) as [h|] eqn:B; [|exact C].
  destruct C as [C1 C2]. pose proof (F _ _ _ _ ex_pick_good B) as X.
  rewrite C1, C2 in X. discriminate.
Qed.
Print Assumptions C78_symbols_refuted.

(** Two readable volumes with 33 files together: the machine does not start. *)
Definition ex_files (k : nat) : volume := map (λ i, Entry (n_num i) false [6%N]) (seq 0 k).
Definition ex_vols4 : list volume := [[f_kernel [1%N]; f_cmdline] ++ ex_files 15; ex_files 16].

Theorem C78_starts_refuted :
  ¬ (∀ pick mem vs k c dk dc,
       good_firmware pick → (∀ log p, pick log p ≠ None) →
       (∀ v, v ∈ vs → readable v) →
       has_file vs k dk → utf8 k = s_kernel →
       has_file vs c dc → utf8 c = s_cmdline →
       ∃ h, boot pick mem vs = Some h).
Proof.
  intros F.
  destruct (F ex_pick (λ _, 0%N) ex_vols4 s_kernel s_cmdline [1%N] [9%N] ex_pick_good)
    as [h H].
  - intros log p. discriminate.
  - intros v Hv.
    assert (A : Forall (λ v : volume, length v ≤ 32 ∧ NoDup (map e_name v) ∧
                 Forall (λ e, length (e_name e) ≤ 87 ∧ Forall (λ u, (u < 55296)%N) (e_name e)) v)
               ex_vols4).
    { apply (bool_decide_unpack _). vm_compute. exact Logic.I. }
    apply (proj1 (stdpp.list.Forall_forall _ _) A) in Hv as (L & ND & Al).
    split; [exact L|]. split; [|exact ND]. intros e He.
    apply (proj1 (stdpp.list.Forall_forall _ _) Al) in He as [He1 He2].
    split; [exact He1|]. eapply Forall_impl; [exact He2|]. intros u Hu. left. exact Hu.
  - eexists. split; [left|left].
  - reflexivity.
  - eexists. split; [left|right; left].
  - reflexivity.
  - assert (C : match boot ex_pick (λ _, 0%N) ex_vols4 with Some _ => False | None => True end)
      by (vm_compute; exact Logic.I).
    rewrite H in C. exact C.
Qed.
Print Assumptions C78_starts_refuted.

(** A file whose name has a character outside of the 16-bit range: whatever
    the firmware does, the machine does not start. *)
Definition ex_vol5 : volume :=
  [f_kernel [1%N]; f_cmdline; Entry [55357; 56832]%N false [5%N]].

Lemma load_loop_fits pick v k e rest s :
  length (e_name e) ≤ 87 →
  load_loop pick v (S k) (e :: rest) s =
  match load_entry pick v e s with None => None | Some s' => load_loop pick v k rest s' end.
Proof.
  intros H. cbn [load_loop]. unfold load_round, read_entry. rewrite decide_True.
  - destruct (load_entry pick v e s); reflexivity.
  - unfold MAX_FILE_INFO_SIZE. lia.
Qed.

Theorem C78_emoji_refuted pick mem : boot pick mem [ex_vol5] = None.
Proof.
  unfold boot. cbn [load_all]. unfold load_modules, MAX_MODULES. unfold ex_vol5 at 2.
  rewrite load_loop_fits by (cbn; lia).
  destruct (load_entry pick ex_vol5 (f_kernel [1%N]) _) as [s1|]; [|reflexivity].
  rewrite load_loop_fits by (cbn; lia).
  destruct (load_entry pick ex_vol5 f_cmdline s1) as [s2|]; [|reflexivity].
  rewrite load_loop_fits by (cbn; lia). reflexivity.
Qed.
Print Assumptions C78_emoji_refuted.

(** With a firmware that refuses to hand out no pages at all, an empty file on
    the volume keeps the machine from starting. *)
Definition ex_strict : allocator := λ log p, if (p =? 0)%N then None else ex_pick log p.

Theorem C78_empty_refuted :
  good_firmware ex_strict ∧ (∀ log p, p ≠ 0%N → ex_strict log p ≠ None) ∧
  boot ex_strict (λ _, 0%N) [[f_kernel [1%N]; f_cmdline; f_init []]] = None.
Proof.
  split; [|split].
  - intros log pages base H. unfold ex_strict in H.
    destruct (pages =? 0)%N; [discriminate|]. exact (ex_pick_good _ _ _ H).
  - intros log p Hp. unfold ex_strict. apply N.eqb_neq in Hp. rewrite Hp. discriminate.
  - vm_compute. reflexivity.
Qed.
Print Assumptions C78_empty_refuted.

(** A volume with a directory, the boot loader, a kernel, a command line and
    two programs: the hypotheses are met and
    the kernel sees what is on the volume. *)
Definition ex_big : list N := replicate 20 3%N.
Definition ex_vol : volume :=
  [Entry (n_num 0) true []; Entry s_loader false [4%N]; f_init ex_big;
   f_kernel [1; 2]%N; f_cmdline; Entry [226; 8364]%N false [7%N]].

Example C78_hyps_met :
  good_firmware ex_pick ∧
  match boot ex_pick (λ _, 0%N) [ex_vol] with
  | Some h =>
      map module_name (h_modules h) =
        [s_kernel; n_init; s_cmdline; [195; 162; 226; 130; 172]]%N ∧
      h_kernel h = [1; 2]%N ∧ h_cmdline h = [9]%N ∧
      map (as_slice (h_mem h)) (h_modules h) = [[1; 2]; ex_big; [9]; [7]]%N
  | None => False
  end.
Proof. split; [apply ex_pick_good|]. vm_compute. repeat split. Qed.
