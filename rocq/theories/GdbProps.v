(** C67: the kernel debugger stops at the points it was given and changes only what it was told to. *)
From Verif Require Import Base GdbModel GdbSpec GdbProofs.
Local Open Scope N_scope.

(** Every request is answered, and the kernel stops, as if the debugger kept a list of at most four points. *)
Theorem C67_points_partial : forall ss,
  plain_run [] ss ->
  let l := (gdb_run gdb_init ss).1 in let L := (pt_run [] ss).1 in
  (gdb_run gdb_init ss).2 = (pt_run [] ss).2 /\
  forall acc, (exists c, c ∈ l /\ trap c acc = true) <-> (exists p, p ∈ L /\ covers p acc).
Proof.
  intros ss H. destruct (run_ok ss gdb_init [] init_inv H) as [E I]. split; [done|]. intros acc. split.
  - intros (c & Hc & Ht). destruct (trap_point _ _ c acc I Hc Ht) as (p & _ & H2 & H3). by exists p.
  - intros (p & Hp & Hc). destruct (point_trap _ _ p acc I Hp Hc) as (c & H1 & _ & H3). by exists c.
Qed.
Print Assumptions C67_points_partial.

(** While the debugger itself runs nothing traps, whatever it has been asked. *)
Theorem C67_quiet_inside : forall l rs c acc, c ∈ (gdb_reqs (gdb_stop l) rs).1 -> trap c acc = false.
Proof.
  intros l rs c acc. assert (H : Forall off (gdb_stop l)).
  { unfold gdb_stop. induction l; cbn; constructor; done. }
  assert (Hf : forall f m, (forall c, c_on (f c) = c_on c) -> Forall off m -> Forall off (fill f m).1).
  { intros f m Hf Hm. induction Hm as [|x m Hx Hm IH]; [constructor|]. cbn [fill]. destruct (c_entry x).
    - destruct (fill f m). by constructor.
    - constructor; [|done]. unfold off. by rewrite Hf. }
  assert (Hd : forall q m, Forall off m -> Forall off (drop_first q m).1).
  { intros q m Hm. induction Hm as [|x m Hx Hm IH]; [constructor|]. cbn [drop_first].
    destruct (match c_entry x with Some e => q e | None => false end); [by constructor|]. destruct (drop_first q m). by constructor. }
  assert (Hr : Forall off (gdb_reqs (gdb_stop l) rs).1).
  { revert H. generalize (gdb_stop l). clear c. induction rs as [|r rs IH]; intros m Hm; [done|]. cbn [gdb_reqs].
    assert (H1 : Forall off (gdb_req m r).1) by (destruct r as [[]|[]]; cbn [gdb_req]; first [by apply Hf|by apply Hd]).
    destruct (gdb_req m r) as [m1 b]. specialize (IH m1 H1). destruct (gdb_reqs m1 rs). done. }
  intros Hc. pose proof (proj1 (stdpp.list.Forall_forall _ _) Hr c Hc) as Hco. unfold off in Hco. unfold trap. by rewrite Hco.
Qed.
Print Assumptions C67_quiet_inside.

(** What gdb is told is one of the points that was hit, and the end of a step if none was. *)
Theorem C67_reason_partial : forall ss,
  plain_run [] ss ->
  let l := (gdb_run gdb_init ss).1 in let L := (pt_run [] ss).1 in
  forall acc bs,
  ((exists p, p ∈ L /\ covers p acc) ->
    exists p, p ∈ L /\ covers p acc /\ stop_reason l (exact_bits l acc) bs = Ok (Some (told p))) /\
  ((forall p, p ∈ L -> ~ covers p acc) ->
    stop_reason l (exact_bits l acc) bs = Ok (if bs then Some DoneStep else None)).
Proof.
  intros ss H l L acc bs. destruct (run_ok ss gdb_init [] init_inv H) as [E I]. split; [by apply reason_ok|].
  intros Hn. assert (Ht : forall c, c ∈ l -> trap c acc = true -> False).
  { intros c Hc Ht. destruct (trap_point _ _ c acc I Hc Ht) as (p & _ & H2 & H3). by eapply Hn. }
  destruct (first_bit_exact acc l ltac:(apply I)) as [[F1 F2]|[(c' & e & I1 & I2 & I3 & I4)|(c' & I1 & I2 & I3)]].
  - unfold stop_reason. rewrite F1. by destruct bs.
  - by destruct (Ht c').
  - by destruct (Ht c').
Qed.
Print Assumptions C67_reason_partial.

(** A read gives the bytes of the range when all of its pages are mapped and fails otherwise. *)
Theorem C67_read_memory : forall pt mem start n r,
  start < VLIMIT ->
  read_addrs pt mem start n = Some r <->
  all_pages (fun p => readable (pt p)) start n /\
  r = map (fun j => mem (start + N.of_nat j)) (seq 0 n).
Proof.
  intros pt mem start n r Hs. unfold read_addrs, all_pages.
  assert (E : (VLIMIT <=? start) = false) by (by apply N.leb_gt). rewrite E. split.
  - intros H. assert (Hp : forall j, j < N.of_nat n -> mapped pt ((start + 0 + j) / PAGE) = true)
      by (by eapply (rd_some pt mem start n 0 r)).
    pose proof (rd_ok pt mem start n 0 Hp) as H'. rewrite N.add_0_r in *. split; [exact Hp|]. congruence.
  - intros [H ->]. rewrite (rd_ok pt mem start n 0); rewrite N.add_0_r; [done|exact H].
Qed.
Print Assumptions C67_read_memory.

(** A write stores all of its bytes and no other when all pages may be written; otherwise it reports failure, having
    stored the bytes before the first page that may not. *)
Theorem C67_write_memory_partial : forall pt mem start d,
  start < VLIMIT ->
  let '(mem', b) := write_addrs pt mem start d in
  (b = true <-> all_pages (fun p => writable (pt p)) start (length d)) /\
  (b = true -> stored mem mem' start d) /\
  (b = false -> exists k, (k < length d)%nat /\ stored mem mem' start (take k d) /\
     writable (pt ((start + N.of_nat k) / PAGE)) = false).
Proof.
  assert (Hw : forall r, may_write r = writable r) by (intros [[[] []]|]; done).
  intros pt mem start d Hs. unfold write_addrs. pose proof (wr_cases pt start d mem 0 Hs) as H.
  specialize (H ltac:(intros Hl; unfold looks in Hl; discriminate Hl)). destruct (wr pt mem start 0 d) as [mem' b].
  rewrite N.add_0_r in H. destruct H as [(-> & H1 & H2)|(-> & k & H1 & H2 & H3)].
  - split; [split; [intros _ j Hj; rewrite <- Hw; by apply H2|done]|]. split; [done|discriminate].
  - split; [split; [done|]|].
    + intros Ha. specialize (Ha (N.of_nat k) ltac:(lia)). cbn beta in Ha. rewrite Hw, Ha in H3. discriminate H3.
    + split; [discriminate|]. intros _. exists k. by rewrite <- Hw.
Qed.
Print Assumptions C67_write_memory_partial.

(** Changing one general register or the program counter changes nothing else: while fs is 0. *)
Definition small (s : sarea) : Prop :=
  s_rflags s < U32 /\ s_cs s < U32 /\ s_ss s < U32 /\ s_gs s < U32 /\ fits (s_fpu s) fpu_max = true.
Definition set_gpr (i : nat) (v : N) (r : gregs) : gregs :=
  mkGr (<[i := v]> (g_gpr r)) (g_rip r) (g_eflags r) (g_cs r) (g_ss r) (g_fs r) (g_gs r) (g_fpu r) (g_st r) (g_xmm r) (g_mxcsr r).
Definition set_rip (v : N) (r : gregs) : gregs :=
  mkGr (g_gpr r) v (g_eflags r) (g_cs r) (g_ss r) (g_fs r) (g_gs r) (g_fpu r) (g_st r) (g_xmm r) (g_mxcsr r).
Theorem C67_registers_partial : forall s i v,
  small s -> s_fs s = 0 ->
  change_registers (set_gpr i v) s =
    Ok (mkSa (<[i := v]> (s_gpr s)) (s_rip s) (s_rflags s) (s_cs s) (s_ss s) (s_fs s) (s_gs s) (s_fpu s) (s_st s) (s_xmm s) (s_mxcsr s)) /\
  change_registers (set_rip v) s =
    Ok (mkSa (s_gpr s) v (s_rflags s) (s_cs s) (s_ss s) (s_fs s) (s_gs s) (s_fpu s) (s_st s) (s_xmm s) (s_mxcsr s)).
Proof.
  intros s i v (H1 & H2 & H3 & H4 & H5) Hf. unfold change_registers, read_registers.
  apply N.ltb_lt in H1, H2, H3, H4. rewrite H1, H2, H3, H4. cbn [andb].
  unfold write_registers, set_gpr, set_rip. cbn [g_gpr g_rip g_eflags g_cs g_ss g_fs g_gs g_fpu g_st g_xmm g_mxcsr].
  rewrite H5, Hf. done.
Qed.
Print Assumptions C67_registers_partial.

(** gdb sees again what it wrote, but for fs and the x87 registers. *)
Theorem C67_registers_read_back_partial : forall s r s' r',
  write_registers s r = Ok s' -> read_registers s' = Ok r' ->
  g_gpr r' = g_gpr r /\ g_rip r' = g_rip r /\ g_eflags r' = g_eflags r /\ g_cs r' = g_cs r /\ g_ss r' = g_ss r /\
  g_gs r' = g_gs r /\ g_fpu r' = g_fpu r /\ g_xmm r' = g_xmm r /\ g_mxcsr r' = g_mxcsr r.
Proof.
  intros s r s' r'. unfold write_registers, read_registers. destruct (fits (g_fpu r) fpu_max); [|done]. intros [= <-].
  cbn [s_gpr s_rip s_rflags s_cs s_ss s_fs s_gs s_fpu s_st s_xmm s_mxcsr].
  destruct (_ && _ && _ && _); [|done]. intros [= <-]. done.
Qed.
Print Assumptions C67_registers_read_back_partial.

(** ** Refuted *)
(** The thread pointer of the kernel (fs) is lost by any change of another register. *)
Theorem C67_change_zeroes_fs_refuted :
  (forall f s s', (forall r, g_fs (f r) = g_fs r) -> change_registers f s = Ok s' -> s_fs s' = 0) /\
  (exists s s', small s /\ s_fs s = 8192 /\ change_registers (set_rip 4096) s = Ok s').
Proof.
  split; [|exists (mkSa [] 0 0 0 0 8192 0 [] [] [] 0); eexists; split; [|split; [done|reflexivity]];
           unfold small; repeat split; try (apply N.ltb_lt); vm_compute; done].
  intros f s s' Hf. unfold change_registers. destruct (read_registers s) as [r| |] eqn:E; [|done|done].
  unfold write_registers. destruct (fits (g_fpu (f r)) fpu_max); [|done]. intros [= <-]. cbn [s_fs]. rewrite Hf.
  unfold read_registers in E. destruct (_ && _ && _ && _); [|done]. by injection E as <-.
Qed.
Print Assumptions C67_change_zeroes_fs_refuted.

(** The x87 registers are shown with the wrong bytes, and what is written to them is dropped. *)
Theorem C67_st_refuted :
  (exists s r, read_registers s = Ok r /\ s_st s = [1] /\ g_st r = [replicate 10 0]) /\
  (forall s r s', write_registers s r = Ok s' -> s_st s' = s_st s).
Proof.
  split.
  - exists (mkSa [] 0 0 0 0 0 0 [] [1] [] 0). eexists. split; [reflexivity|]. split; [done|]. vm_compute. done.
  - intros s r s'. unfold write_registers. destruct (fits _ _); [|done]. by intros [= <-].
Qed.
Print Assumptions C67_st_refuted.

(** A gs base above 4 GiB stops the kernel in the debugger. *)
Theorem C67_gs_panics_refuted : exists s, U32 <= s_gs s /\ read_registers s = Panic.
Proof. exists (mkSa [] 0 0 0 0 0 U32 [] [] [] 0). split; [apply N.le_refl|]. vm_compute. done. Qed.
Print Assumptions C67_gs_panics_refuted.

Definition set_one (p : point) : list (list greq) := [[GAdd p]].
(** A watchpoint for reads stops at a write, and says it was a read. *)
Theorem C67_read_watch_refuted :
  let ss := set_one (PWatch 4096 8 WRead) in let l := (gdb_run gdb_init ss).1 in let acc := Data true 4096 8 in
  (forall p, p ∈ (pt_run [] ss).1 -> ~ covers p acc) /\ (exists c, c ∈ l /\ trap c acc = true) /\
  stop_reason l (exact_bits l acc) false = Ok (Some (Watch WRead 4096)).
Proof.
  cbn zeta. split; [|split].
  - intros p Hp. vm_compute in Hp. apply elem_of_list_singleton in Hp as ->. cbn. intros (_ & _ & H). discriminate H.
  - eexists. split; [cbn; left|]. vm_compute. done.
  - vm_compute. done.
Qed.
Print Assumptions C67_read_watch_refuted.

(** Of a watchpoint of 16 bytes only 8 are watched, of an unaligned one some bytes are not. *)
Theorem C67_watch_size_refuted :
  (let ss := set_one (PWatch 4096 16 WWrite) in let l := (gdb_run gdb_init ss).1 in let acc := Data true 4104 8 in
   (gdb_run gdb_init ss).2 = [[true]] /\ (exists p, p ∈ (pt_run [] ss).1 /\ covers p acc) /\
   forall c, c ∈ l -> trap c acc = false) /\
  (let ss := set_one (PWatch 4100 8 WWrite) in let l := (gdb_run gdb_init ss).1 in let acc := Data true 4104 4 in
   (gdb_run gdb_init ss).2 = [[true]] /\ (exists p, p ∈ (pt_run [] ss).1 /\ covers p acc) /\
   forall c, c ∈ l -> trap c acc = false).
Proof.
  cbn zeta. split; (split; [vm_compute; done|]; split).
  - eexists. split; [cbn; left|]. cbn. lia.
  - apply stdpp.list.Forall_forall. repeat constructor.
  - eexists. split; [cbn; left|]. cbn. lia.
  - apply stdpp.list.Forall_forall. repeat constructor.
Qed.
Print Assumptions C67_watch_size_refuted.

(** Removing one watchpoint removes another at the same address instead. *)
Theorem C67_remove_other_refuted :
  let ss := [[GAdd (PWatch 4096 8 WWrite); GAdd (PWatch 4096 8 WRW); GDel (PWatch 4096 8 WRW)]] in
  let l := (gdb_run gdb_init ss).1 in let acc := Data false 4096 8 in
  (gdb_run gdb_init ss).2 = (pt_run [] ss).2 /\ (pt_run [] ss).1 = [PWatch 4096 8 WWrite] /\
  (exists c, c ∈ l /\ trap c acc = true) /\
  stop_reason l (exact_bits l acc) false = Ok (Some (Watch WRW 4096)).
Proof.
  cbn zeta. split; [vm_compute; done|]. split; [vm_compute; done|]. split.
  - eexists. split; [cbn; right; left|]. vm_compute. done.
  - vm_compute. done.
Qed.
Print Assumptions C67_remove_other_refuted.

(** The processor may set the bit of a disabled register: a breakpoint that was removed hides the one that is hit, and
    gdb is told nothing. *)
Theorem C67_stale_bit_refuted :
  let ss := [[GAdd (PBreak 4096 RHard); GAdd (PBreak 4096 RSoft); GDel (PBreak 4096 RHard)]] in
  let l := (gdb_run gdb_init ss).1 in let acc := Fetch 4096 in
  plain_run [] ss /\ (exists p, p ∈ (pt_run [] ss).1 /\ covers p acc) /\
  exists b, may_bits l acc b /\ stop_reason l b false = Ok None.
Proof.
  cbn zeta. split; [cbn; done|]. split; [eexists; split; [cbn; left|done]|].
  exists [true; true; false; false]. split; [|vm_compute; done]. repeat constructor; vm_compute; done.
Qed.
Print Assumptions C67_stale_bit_refuted.

(** Of two points hit at once only one is reported. *)
Theorem C67_two_at_once_refuted :
  let ss := [[GAdd (PWatch 4096 8 WWrite); GAdd (PWatch 4104 8 WWrite)]] in
  let l := (gdb_run gdb_init ss).1 in let acc := Data true 4100 8 in
  plain_run [] ss /\ covers (PWatch 4104 8 WWrite) acc /\ PWatch 4104 8 WWrite ∈ (pt_run [] ss).1 /\
  stop_reason l (exact_bits l acc) false = Ok (Some (Watch WWrite 4096)).
Proof.
  cbn zeta. split.
  - cbn. split; [|done]. split; [|split; [|done]].
    + split; [tauto|]. split; [done|]. split; [done|]. intros len' k' H. by apply elem_of_nil in H.
    + split; [tauto|]. split; [done|]. split; [done|]. intros len' k' H. apply elem_of_list_singleton in H. discriminate H.
  - split; [cbn; lia|]. split; [cbn; left|vm_compute; done].
Qed.
Print Assumptions C67_two_at_once_refuted.

(** A write that fails has changed memory. *)
Theorem C67_failed_write_refuted :
  exists pt mem start d mem' x, write_addrs pt mem start d = (mem', false) /\ mem' x <> mem x.
Proof.
  exists (fun p => if p =? 0 then Some (mkPr true false) else None), (fun _ => 0), 4095, [7; 8].
  eexists. exists 4095. split; [reflexivity|]. vm_compute. discriminate.
Qed.
Print Assumptions C67_failed_write_refuted.

(** ** The hypotheses are met *)
Definition ss0 : list (list greq) :=
  [[GAdd (PBreak 4096 RSoft); GAdd (PWatch 8192 4 WWrite)];
   [GAdd (PBreak 5000 RHard); GAdd (PBreak 6000 RHard); GAdd (PBreak 7000 RHard)];
   [GDel (PBreak 4096 RSoft); GDel (PBreak 4096 RSoft); GAdd (PWatch 8200 8 WRW)]].
Example C67_hyps_met :
  plain_run [] ss0 /\
  (gdb_run gdb_init ss0).2 = [[true; true]; [true; true; false]; [true; false; true]] /\
  (let l := (gdb_run gdb_init ss0).1 in
   stop_reason l (exact_bits l (Data true 8194 2)) false = Ok (Some (Watch WWrite 8192)) /\
   stop_reason l (exact_bits l (Data false 8204 1)) false = Ok (Some (Watch WRW 8200)) /\
   stop_reason l (exact_bits l (Fetch 4096)) true = Ok (Some DoneStep)) /\
  small (mkSa [1; 2] 3 514 8 16 0 99 [895; 0; 0; 0; 0; 0; 0; 0] [] [] 8064).
Proof.
  split; [|split; [vm_compute; done|split; [vm_compute; done|]]].
  - cbn. unfold plain. repeat split; try tauto; try done.
    all: intros; match goal with H : _ ∈ _ |- _ => repeat (apply elem_of_cons in H as [H|H]; [discriminate H|]); by apply elem_of_nil in H end.
  - unfold small. cbn [s_rflags s_cs s_ss s_gs s_fpu]. repeat split; try (apply N.ltb_lt); vm_compute; done.
Qed.
