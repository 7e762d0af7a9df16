(** C80: the ACPI interpreter gets the tables, memory and device registers that
    it asks the kernel for. *)
From Verif Require Import Base AcpModel AcpSpec AcpProofs.

(** ** Memory *)

(** Whatever the interpreter does with its blocks, freeing one gives back to the
    heap exactly the block it came from, with its size and alignment. *)
Theorem C80_free heap blocks mem p n :
  reach heap blocks mem → (p, n) ∈ blocks →
  step mem (OFree p) = Some (mem, [EGive (p - 16) (n + 16) 8]%N) ∧
  (p - 16, n + 16)%N ∈ heap.
Proof.
  intros R Hin. destruct (inv_free _ _ _ _ _ (reach_inv _ _ _ R) Hin) as [A B].
  cbn [step]. rewrite A. split; [reflexivity|exact B].
Qed.
Print Assumptions C80_free.

(** Blocks that the interpreter has at the same time do not overlap. *)
Theorem C80_blocks heap blocks mem i j p n q m x :
  reach heap blocks mem →
  blocks !! i = Some (p, n) → blocks !! j = Some (q, m) → i ≠ j →
  (p ≤ x < p + n)%N → (q ≤ x < q + m)%N → False.
Proof.
  intros R Hi Hj Ne. destruct (reach_inv _ _ _ R) as [_ P _]. clear R. revert i j Hi Hj Ne.
  induction blocks as [|b l IH]; intros i j Hi Hj Ne X1 X2; [discriminate|].
  destruct P as [F P]. rewrite stdpp.list.Forall_forall in F.
  destruct i as [|i], j as [|j]; [contradiction| | |].
  - injection Hi as ->. cbn in Hj; apply elem_of_list_lookup_2 in Hj.
    apply (F _ Hj x); cbn [fst snd]; lia.
  - injection Hj as ->. cbn in Hi; apply elem_of_list_lookup_2 in Hi.
    apply (F _ Hi x); cbn [fst snd]; lia.
  - cbn in Hi, Hj. apply (IH P i j); try assumption. lia.
Qed.
Print Assumptions C80_blocks.

(** Allocation hands out memory of the heap or the null pointer, and stops the
    kernel only for sizes that do not fit an address. *)
Theorem C80_allocate mem size answer :
  (size < 2 ^ 63)%N →
  ∃ mem', step mem (OAlloc size answer) =
    Some (mem', [EAsk (size + 16) 8;
                 EReturn (match answer with Some a => a + 16 | None => 0 end)])%N ∧
    ∀ x, match answer with Some a => (x < a ∨ a + 16 ≤ x)%N | None => True end → mem' x = mem x.
Proof.
  intros H. cbn [step]. unfold os_allocate, HEADER_SIZE.
  replace (size + 16 <? 2 ^ 64)%N with true.
  2:{ symmetry. apply N.ltb_lt. eapply N.lt_trans; [apply N.add_lt_mono_r; exact H|reflexivity]. }
  destruct answer as [a|]; eexists; (split; [reflexivity|]).
  - intros x Hx. unfold store. rewrite le_length. change (N.of_nat 8) with 8%N.
    destruct ((a <=? x) && (x <? a + 8))%N eqn:E; [|reflexivity].
    apply andb_true_iff in E as [E1 E2]. apply N.leb_le in E1. apply N.ltb_lt in E2. lia.
  - reflexivity.
Qed.
Print Assumptions C80_allocate.

(** Physical memory: the address space is asked to map whole pages that cover
    the memory asked for and no page more; the pointer is where that memory is
    then seen. *)
Theorem C80_map location len :
  (location < 2 ^ 52)%N → (0 < len < 2 ^ 52)%N →
  ∃ vbase pbase size p,
    map_memory location len = Some (vbase, pbase, size, p) ∧
    (vbase mod 4096 = 0 ∧ pbase mod 4096 = 0 ∧ size mod 4096 = 0)%N ∧
    (pbase ≤ location)%N ∧ (location + len ≤ pbase + size)%N ∧
    (location < pbase + 4096)%N ∧ (pbase + size < location + len + 4096)%N ∧
    (p - vbase = location - pbase)%N ∧ (vbase ≤ p)%N ∧ vbase = (2 ^ 46 + pbase)%N.
Proof.
  intros Hl Hn. unfold map_memory, PAGE, KERNEL_BASE.
  change (2 ^ 64)%N with 18446744073709551616%N. change (2 ^ 46)%N with 70368744177664%N.
  change (2 ^ 52)%N with 4503599627370496%N in *.
  pose proof (N.div_mod location 4096 ltac:(lia)) as D.
  pose proof (N.mod_lt location 4096 ltac:(lia)) as M.
  set (r := (location mod 4096)%N) in *. set (q := (location / 4096)%N) in *. clearbody r q.
  replace (location - (location - r))%N with r by lia.
  pose proof (N.div_mod (r + len + 4096 - 1) 4096 ltac:(lia)) as D2.
  pose proof (N.mod_lt (r + len + 4096 - 1) 4096 ltac:(lia)) as M2.
  set (r2 := ((r + len + 4096 - 1) mod 4096)%N) in *.
  set (q2 := ((r + len + 4096 - 1) / 4096)%N) in *. clearbody r2 q2.
  replace (r + len + 4096 <? 18446744073709551616)%N with true by (symmetry; apply N.ltb_lt; lia).
  replace (70368744177664 + location + len + 4096 <? 18446744073709551616)%N with true
    by (symmetry; apply N.ltb_lt; lia).
  cbn [andb]. eexists _, _, _, _. split; [reflexivity|].
  assert (E : (location - r = q * 4096)%N) by lia. rewrite E.
  split; [split; [|split]|].
  - replace (70368744177664 + q * 4096)%N with ((17179869184 + q) * 4096)%N by lia.
    apply N.mod_mul. lia.
  - apply N.mod_mul. lia.
  - apply N.mod_mul. lia.
  - repeat split; lia.
Qed.
Print Assumptions C80_map.

(** ** PCI configuration space *)

(** A register at a multiple of four is read with each width.
    Missing: registers at other addresses. *)
Theorem C80_pci_partial c bus dev fn reg :
  (bus < 256)%N → (dev < 32)%N → (fn < 8)%N → (reg < 256)%N → (reg mod 4 = 0)%N →
  read_pci c bus dev fn reg 8 = PciValue (config_value c bus dev fn reg 1) ∧
  read_pci c bus dev fn reg 16 = PciValue (config_value c bus dev fn reg 2) ∧
  read_pci c bus dev fn reg 32 = PciValue (config_value c bus dev fn reg 4) ∧
  (∀ width, width ∉ [8; 16; 32]%N → read_pci c bus dev fn reg width = PciBad).
Proof.
  intros Hb Hd Hf Hr Ha.
  assert (Hr' : (reg ≤ 252)%N).
  { pose proof (N.div_mod reg 4 ltac:(lia)) as D. rewrite Ha in D.
    destruct (N.le_gt_cases reg 252); [assumption|].
    assert (reg / 4 < 64)%N by (apply N.div_lt_upper_bound; lia). lia. }
  unfold read_pci. destruct (pci_bus_address bus dev fn reg) as [addr|] eqn:A.
  2:{ unfold pci_bus_address in A.
      replace (reg <=? 252)%N with true in A by (symmetry; apply N.leb_le; exact Hr').
      discriminate. }
  destruct (bridge_fields _ _ _ _ _ Hb Hd Hf Hr' Ha A) as (E1 & E2 & E3 & E4).
  assert (K : ∀ k, bridge_read c addr 0 k = config_value c bus dev fn reg k).
  { intros k. unfold bridge_read. rewrite E1, E2, E3, E4. rewrite config_bytes.
    f_equal. cbn. lia. }
  rewrite !K. split; [reflexivity|]. split; [reflexivity|]. split; [reflexivity|].
  intros width Hw.
  destruct (width =? 8)%N eqn:W1; [apply N.eqb_eq in W1; exfalso; apply Hw; subst; left|].
  destruct (width =? 16)%N eqn:W2; [apply N.eqb_eq in W2; exfalso; apply Hw; subst; right; left|].
  destruct (width =? 32)%N eqn:W3; [apply N.eqb_eq in W3; exfalso; apply Hw; subst; right; right; left|].
  reflexivity.
Qed.
Print Assumptions C80_pci_partial.

(** A configuration space in which each register holds its own address. *)
Definition ex_config : config := λ _ _ _ reg, reg.

(** The byte at 61, the interrupt pin, reads as the byte at 60. *)
Theorem C80_pci_refuted :
  ¬ (∀ c bus dev fn reg, (bus < 256)%N → (dev < 32)%N → (fn < 8)%N → (reg < 256)%N →
       read_pci c bus dev fn reg 8 = PciPanic ∨
       read_pci c bus dev fn reg 8 = PciValue (config_value c bus dev fn reg 1)).
Proof.
  intros F. destruct (F ex_config 0 0 0 61 ltac:(lia) ltac:(lia) ltac:(lia) ltac:(lia))%N as [H|H];
    vm_compute in H; discriminate.
Qed.
Print Assumptions C80_pci_refuted.

(** The last three bytes of a function's registers stop the kernel. *)
Theorem C80_pci_panic_refuted c bus dev fn reg width :
  (253 ≤ reg < 2 ^ 31)%N → read_pci c bus dev fn reg width = PciPanic.
Proof.
  intros H. unfold read_pci, pci_bus_address.
  replace (reg <=? 252)%N with false by (symmetry; apply N.leb_gt; lia).
  replace (2 ^ 31 <=? reg)%N with false by (symmetry; apply N.leb_gt; lia).
  reflexivity.
Qed.
Print Assumptions C80_pci_panic_refuted.

(** ** Root pointer *)

(** If the firmware has tables of ACPI 2.0, the root pointer is one of theirs.
    Missing: firmware that only has tables of ACPI 1.0. *)
Theorem C80_root_partial ts a :
  Acpi2 a ∈ ts → Acpi2 (root_pointer ts) ∈ ts.
Proof.
  intros H. unfold root_pointer.
  pose proof (find_roots_acc ts (0, 0)%N) as X. cbv zeta in X. fold (find_roots ts) in X.
  destruct (find_roots ts) as [r1 r2]. cbn [snd] in X.
  destruct X as [X|[_ X]]; [exact X|]. exfalso. exact (X a H).
Qed.
Print Assumptions C80_root_partial.

(** With tables of ACPI 1.0 only, the root pointer is null. *)
Theorem C80_root_refuted :
  ¬ (∀ ts a, Acpi1 a ∈ ts → a ≠ 0%N → root_pointer ts ≠ 0%N).
Proof.
  intros F. apply (F [OtherTable; Acpi1 983040%N] 983040%N); [right; left|discriminate|reflexivity].
Qed.
Print Assumptions C80_root_refuted.

(** ** Concrete cases *)

(** Two blocks, a write into the first one, and the first one is freed. *)
Example C80_hyps_met :
  ∃ mem, reach [(8192, 48)]%N [(8208, 32)]%N mem ∧
         step mem (OFree 8208) = Some (mem, [EGive 8192 48 8]%N).
Proof.
  set (m0 := (λ _, 255%N) : memory).
  set (m1 := store m0 4096 (le 8 116)). set (m2 := store m1 8192 (le 8 48)).
  set (m3 := store m2 4120 [7%N]).
  assert (R1 : reach [(4096, 116)]%N [(4112, 100)]%N m1).
  { apply (r_alloc [] [] m0 100%N 4096%N m1 4112%N); [apply r_start|lia| |reflexivity].
    intros b n x Hin. inversion Hin. }
  assert (R2 : reach [(8192, 48); (4096, 116)]%N [(8208, 32); (4112, 100)]%N m2).
  { apply (r_alloc _ _ m1 32%N 8192%N m2 8208%N R1); [lia| |reflexivity].
    intros b n x Hin. apply elem_of_list_singleton in Hin. injection Hin as -> ->. lia. }
  assert (R3 : reach [(8192, 48); (4096, 116)]%N [(8208, 32); (4112, 100)]%N m3).
  { apply (r_write _ _ m2 4112%N 100%N 4120%N 7%N m3 [] R2); [right; left|lia|reflexivity]. }
  assert (F : os_free m3 4112 = [EGive 4096 116 8]%N) by (vm_compute; reflexivity).
  assert (G : os_free m3 8208 = [EGive 8192 48 8]%N) by (vm_compute; reflexivity).
  exists m3. split.
  - apply (r_free [(8192, 48)]%N [] [(8208, 32)]%N [] m3 4112%N 100%N m3 4096%N 116%N 8%N R3).
    cbn [step]. rewrite F. reflexivity.
  - cbn [step]. rewrite G. reflexivity.
Qed.

Example C80_other_hyps_met :
  read_pci ex_config 3 31 7 16 32 = PciValue 319951120%N ∧
  map_memory 983047 5000 = Some (70368745160704, 983040, 8192, 70368745160711)%N ∧
  root_pointer [Acpi1 5; Acpi2 983040; OtherTable]%N = 983040%N.
Proof. vm_compute. repeat split. Qed.
