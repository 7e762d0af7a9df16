(** What a program learns about itself and the machine (C65). *)
From Verif Require Import Base SysModel InfModel InfSpec InfProofs.
Open Scope N_scope.

(** A program gets its process information as the kernel holds it, if the two command lines together have at most
    127 bytes.  Missing: longer ones. *)
Theorem C65_process_info_partial : forall debug p, pinfo_ok p ->
  (length (pi_cmdline p) + length (pi_app p) <= 127)%nat -> process_info debug (Ok tt) p = Ok p.
Proof. intros debug p Hp Hl. apply pinfo_fits; [done|]. by apply enc_pinfo_bound. Qed.
Print Assumptions C65_process_info_partial.
(** A kernel that cannot write the program's buffer says so. *)
Theorem C65_process_info_error : forall debug p e,
  (length (pi_cmdline p) + length (pi_app p) <= 127)%nat -> process_info debug (Err e) p = Err e.
Proof.
  intros debug p e Hl. apply enc_pinfo_bound in Hl. unfold process_info, give. rewrite pinfo_buf.
  destruct (Nat.leb_spec (length (enc_pinfo p)) PINFO_BUF) as [H|H]; [done|unfold PINFO_BUF in H; lia].
Qed.
Print Assumptions C65_process_info_error.
(** With 170 bytes or more every program panics that asks, whatever else it is told. *)
Theorem C65_long_command_line_refuted :
  (forall debug copy p, (170 <= length (pi_cmdline p) + length (pi_app p))%nat -> process_info debug copy p = Panic) /\
  exists p, pinfo_ok p /\ process_info false (Ok tt) p = Panic.
Proof.
  assert (H : forall debug copy p, (170 <= length (pi_cmdline p) + length (pi_app p))%nat -> process_info debug copy p = Panic).
  { intros debug copy p Hl. apply pinfo_long. by apply enc_pinfo_long. }
  split; [exact H|]. exists (mkPI 1 false 0 0 0 0 [] (replicate 170 65)). split; [done|]. apply H. cbn [pi_cmdline pi_app length].
  rewrite replicate_length. lia.
Qed.
Print Assumptions C65_long_command_line_refuted.

(** On a machine with at most 511 hardware threads a program gets the list of them, in the order of the topology,
    each with the place it has there and a name of its own. *)
Theorem C65_threads_partial : forall debug mid ptr cap ws, mid < 2 ^ 32 -> Forall hw_ok ws -> NoDup (map w_id ws) ->
  (length ws <= 511)%nat ->
  exists cs, threads_native debug (Ok tt) mid ptr cap ws = Ok cs /\ Forall2 (describes mid) ws cs /\ NoDup (map h_id cs).
Proof.
  intros debug mid ptr cap ws Hm Hf Hnd Hl. exists (map (cpu_of mid) ws). split; [|split].
  - apply native_fits; [|done]. apply Forall_fmap. eapply Forall_impl; [exact Hf|]. intros w Hw. by apply cpu_of_ok.
  - by apply native_describes.
  - by apply ids_distinct.
Qed.
Print Assumptions C65_threads_partial.
(** With more, a debug build panics and a release build gets an error. *)
Theorem C65_many_threads_refuted : forall copy mid ptr cap ws, (512 <= length ws)%nat ->
  threads_native true copy mid ptr cap ws = Panic /\ threads_native false copy mid ptr cap ws = Err RackscaleRPCError.
Proof. intros copy mid ptr cap ws Hl. split; by rewrite native_long. Qed.
Print Assumptions C65_many_threads_refuted.

(** On a rack whose machines have at most 203 threads together, a program on any machine gets the threads of all of
    them, in the order in which the machines registered, no two of the same name. *)
Theorem C65_rack_threads_partial : forall debug l ptr cap, rack_ok l -> (rack_total l <= 203)%nat ->
  exists k cs, register_all ctl_init l = Ok k /\ threads_rack debug (Ok tt) k ptr cap = Ok cs /\
    Forall2 (fun x c => describes x.1 x.2 c) (rack_list l) cs /\ NoDup (map h_id cs).
Proof.
  intros debug l ptr cap Hr Ht. destruct (rack_fits debug l ptr cap Hr Ht) as (k & Hk & Hc). exists k, (rack_cpus l).
  split; [done|]. split; [done|]. split; [by apply rack_describes|by apply rack_ids_distinct].
Qed.
Print Assumptions C65_rack_threads_partial.
(** With more the machines register, but the first program that asks brings the controller down. *)
Theorem C65_rack_many_threads_refuted :
  (forall debug copy l ptr cap, rack_ok l -> (204 <= rack_total l)%nat ->
     exists k, register_all ctl_init l = Ok k /\ threads_rack debug copy k ptr cap = Panic) /\
  exists l, rack_ok l /\ length l = 2%nat /\ (204 <= rack_total l)%nat.
Proof.
  split; [exact rack_long|].
  set (m := map (fun i => mkHw (N.of_nat i) (Some 0) 0 (N.of_nat i) 0) (seq 0 102)).
  assert (Hm : (length m <= 192)%nat /\ NoDup (map w_id m) /\ Forall hw_ok m).
  { split; [unfold m; rewrite map_length; apply Nat.leb_le; by vm_compute|]. split.
    - unfold m. rewrite map_map. cbn [w_id]. apply NoDup_fmap_2; [intros i j; lia|]. apply NoDup_ListNoDup, seq_NoDup.
    - unfold m. apply Forall_fmap. apply stdpp.list.Forall_forall. intros i Hi. apply elem_of_seq in Hi.
      unfold compose, hw_ok. cbn [w_id w_node w_package w_core w_thread]. lia. }
  exists [(1, m); (2, m)]. split; [|split; [done|]].
  - split.
    + cbn [map fst]. apply stdpp.list.NoDup_cons. split; [|apply NoDup_singleton].
      intros H. apply elem_of_list_singleton in H. discriminate.
    + constructor; [|constructor; [|constructor]]; cbn [fst snd]; (split; [lia|exact Hm]).
  - unfold rack_total. cbn [map concat snd]. rewrite app_nil_r, app_length. unfold m. rewrite map_length.
    apply Nat.leb_le. by vm_compute.
Qed.
Print Assumptions C65_rack_many_threads_refuted.

(** ** The hypotheses are met *)
Definition ex_pinfo : pinfo := mkPI 3 true 0x5000 0x20 0x1234567 64 (str_bytes "4") (str_bytes "--threads=1 --num=50000").
Definition ex_rack : list (N * list hw) :=
  [(2, [mkHw 0 (Some 0) 0 0 0; mkHw 1 (Some 1) 1 0 0]); (1, [mkHw 0 None 0 0 0])].
Example C65_hyps_met :
  pinfo_ok ex_pinfo /\ process_info true (Ok tt) ex_pinfo = Ok ex_pinfo /\ length (enc_pinfo ex_pinfo) = 119%nat /\
  rack_ok ex_rack /\
  threads_native true (Ok tt) 0 77 99 [mkHw 0 (Some 0) 0 0 0; mkHw 1 (Some 1) 1 0 0] =
    Ok [mkCpu 0 0 0 0 0; mkCpu 1 1 1 0 0] /\
  match register_all ctl_init ex_rack with
  | Ok k => threads_rack true (Ok tt) k 77 99 =
      Ok [mkCpu (2 ^ 33) 0 0 0 0; mkCpu (2 ^ 33 + 1) 1 1 0 0; mkCpu (2 ^ 32) 0 0 0 0]
  | _ => False
  end.
Proof.
  split; [by vm_compute|]. split; [by vm_compute|]. split; [by vm_compute|]. split.
  - split.
    + apply stdpp.list.NoDup_cons. split; [|apply NoDup_singleton]. intros H. apply elem_of_list_singleton in H. discriminate.
    + constructor; [|constructor; [|constructor]]; cbn [fst snd].
      * split; [lia|]. split; [cbn [length]; lia|]. split; [|repeat constructor; by vm_compute].
        apply stdpp.list.NoDup_cons. split; [|apply NoDup_singleton]. intros H. apply elem_of_list_singleton in H. discriminate.
      * split; [lia|]. split; [cbn [length]; lia|]. split; [apply NoDup_singleton|repeat constructor; by vm_compute].
  - split; [by vm_compute|by vm_compute].
Qed.
