(** C73: a PCI device belongs to one driver. *)
From Verif Require Import Base PciModel PciSpec PciProofs.
Local Open Scope N_scope.

(** However many threads call claim_device and claim_devices, and however they interleave: every device found on the bus is at every
    moment in exactly one place, still in the table, or with one call.  So no two drivers get the same device, none gets it twice, and
    none is lost.  A driver gets only devices with the vendor and the device number it asked for, claim_device at most one, and when
    claim_device finds none, or after claim_devices, no such device is left. *)
Theorem C73_one_owner devs tab sched s :
  NoDup devs -> pci_init devs = Ok tab -> s = pci_run sched (pst0 tab) ->
  (forall x, x ∈ devs <-> exists o, has s o x) /\
  (forall x o1 o2, has s o1 x -> has s o2 x -> o1 = o2) /\
  (forall k t c l, p_log s !! k = Some (t, c, l) ->
     NoDup l /\ (forall x, x ∈ l -> asked c x) /\
     match c with One _ _ => (length l <= 1)%nat /\ (l = [] -> forall x, asked c x -> ~ has s Table x)
                | Many _ _ => forall x, asked c x -> ~ has s Table x end).
Proof.
  intros ND Ei ->. pose proof (pinv_run devs sched _ (pinv_init devs tab ND Ei)) as I. split; [|split].
  - intros x. split; [apply (v_all _ _ I)|intros [o Ho]; eapply (v_src _ _ I), Ho].
  - intros x o1 o2. apply (v_one _ _ I).
  - intros k t c l Hl. split; [eapply (v_nd _ _ I), Hl|]. split; [intros x Hx; eapply (v_asked _ _ I); eassumption|].
    destruct c as [v d|v d].
    + split; [eapply (v_onedev _ _ I), Hl|]. intros -> x Ha. eapply (v_left _ _ I); [exact Hl|left; reflexivity|exact Ha].
    + intros x Ha. eapply (v_left _ _ I); [exact Hl|right; exact Logic.I|exact Ha].
Qed.
Print Assumptions C73_one_owner.

(** A caller that nobody interferes with gets what is due: claim_device the first such device of the bus that is still there,
    claim_devices all of them in the order of the bus. *)
Theorem C73_alone t c s : p_thr s t = TIdle ->
  exists n, (n <= length (p_tab s) + 2)%nat /\ p_thr (pci_run (repeat (t, c) n) s) t = TIdle /\
            p_log (pci_run (repeat (t, c) n) s) = p_log s ++ [(t, c, due c (p_tab s))].
Proof. apply claim_alone. Qed.
Print Assumptions C73_alone.

(** Every call returns after a bounded number of its own rounds, whatever the other threads do in between. *)
Theorem C73_returns t sched s : (length (p_tab s) + 2 <= steps_of t sched)%nat -> (returned t s < returned t (pci_run sched s))%nat.
Proof.
  intros H. apply returns. destruct (p_thr s t) as [|c i acc]; cbn [rounds]; lia.
Qed.
Print Assumptions C73_returns.

(** The table is made for every machine with at most 24 devices. *)
Theorem C73_table devs : (length devs <= 24)%nat -> pci_init devs = Ok (map Some devs).
Proof. intros H. unfold pci_init. rewrite (proj2 (Nat.leb_le _ _)); [reflexivity|exact H]. Qed.
Print Assumptions C73_table.

(** Outside of the claim: a machine with 25 devices does not boot. *)
Theorem C73_many_devices_refuted : exists devs, length devs = 25%nat /\ NoDup devs /\ pci_init devs = Panic.
Proof.
  exists (map (fun i => Dev (N.of_nat i) 0 0) (seq 0 25)). split; [reflexivity|]. split; [|reflexivity].
  apply (NoDup_fmap_2_strong (fun i => Dev (N.of_nat i) 0 0)); [|apply NoDup_ListNoDup, seq_NoDup].
  intros a b _ _ E. injection E as E. lia.
Qed.
Print Assumptions C73_many_devices_refuted.

(** Outside of the claim: claim_devices is not one step.  Two drivers that ask for the same kind at the same time can each get a part. *)
Theorem C73_split_refuted : exists devs tab sched, NoDup devs /\ pci_init devs = Ok tab /\
  exists a b, p_log (pci_run sched (pst0 tab)) = [(1%nat, Many 1 2, [a]); (0%nat, Many 1 2, [b])] /\ a <> b.
Proof.
  exists [Dev 1 1 2; Dev 2 1 2], [Some (Dev 1 1 2); Some (Dev 2 1 2)],
    [(0%nat, Many 1 2); (1%nat, Many 1 2); (0%nat, Many 1 2); (1%nat, Many 1 2); (1%nat, Many 1 2); (1%nat, Many 1 2); (0%nat, Many 1 2); (0%nat, Many 1 2)].
  split; [apply (bool_decide_unpack _); vm_compute; exact Logic.I|]. split; [reflexivity|].
  exists (Dev 2 1 2), (Dev 1 1 2). split; [vm_compute; reflexivity|discriminate].
Qed.
Print Assumptions C73_split_refuted.

(** Four devices, three callers at once: two network cards and two shared memory devices. *)
Definition ex_devs : list dev := [Dev 8 0x15ad 0x07b0; Dev 16 0x1af4 0x1110; Dev 24 0x15ad 0x07b0; Dev 32 0x1af4 0x1110].
Definition ex_sched : list (nat * call) :=
  let a := (0%nat, One 0x15ad 0x07b0) in let b := (1%nat, Many 0x1af4 0x1110) in let c := (2%nat, One 0x15ad 0x07b0) in
  [a; b; c; b; c; a; b; a; b; a; b; b].
Example C73_hyps_met : NoDup ex_devs /\ pci_init ex_devs = Ok (map Some ex_devs) /\
  p_log (pci_run ex_sched (pst0 (map Some ex_devs))) =
    [(2%nat, One 0x15ad 0x07b0, [Dev 8 0x15ad 0x07b0]); (0%nat, One 0x15ad 0x07b0, [Dev 24 0x15ad 0x07b0]);
     (1%nat, Many 0x1af4 0x1110, [Dev 16 0x1af4 0x1110; Dev 32 0x1af4 0x1110])] /\
  due (One 0x15ad 0x07b0) (map Some ex_devs) = [Dev 8 0x15ad 0x07b0] /\
  (length (map Some ex_devs) + 2 <= steps_of 1 ex_sched)%nat.
Proof. split; [apply (bool_decide_unpack _); vm_compute; exact Logic.I|]. repeat split; vm_compute; first [reflexivity|lia]. Qed.
