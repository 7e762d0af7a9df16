(** C52: the page tables answer as the reference address space. *)
From Verif Require Import Base VsModel VsSpec VsProps MasModel MasSpec MasProofs.

(** Any history of calls, with frames of one page that do not extend a mapping, usual rights,
    addresses below 2^48, and aligned ones for unmap: every answer of the page tables is that of
    the reference, and where both refuse a map both name a mapping that is in the way.  No call
    panics.  Missing: what the refutations below show. *)
Theorem C52_same_answers_partial lg dbg os :
  as_all_ok lg [] os -> same_answers [] os (mas_answers [] os) (vs_answers lg dbg vs_init os).
Proof. intros H. apply answers_sim; [apply sim_init|done]. Qed.
Print Assumptions C52_same_answers_partial.

(** A history with maps of both sizes, conflicts, repetitions, rights and unmaps. *)
Definition ex_as : list asop :=
  [AMap 0x200000 0x400000 0x200000 ma_write_; AMap 0x1000 0x5000 0x1000 ma_user; AMap 0x1000 0x5000 0x1000 ma_user;
   AMap 0 0 0x200000 ma_user; AMap 0x201000 0x5000 0x1000 ma_write_; AResolve 0x3ff123; AAdjust 0x300000 ma_execute;
   AMap 0x200000 0x400000 0x200000 ma_write_; AResolve 0x200000; AUnmap 0x300000; AUnmap 0x300000; AMap 0x201000 0x5000 0x1000 ma_write_;
   AMap 0x1000 0x5001 0x1000 ma_user; AMap 0x1001 0x5000 0x1000 ma_user; AAdjust 0x1001 ma_user; AResolve 0x201fff].
Definition not_ext_b (l : mas) (b p sz : N) (a : mapact) : bool :=
  List.forallb (fun e => negb ((e.1 =? b)%N && (mi_size e.2 <? sz)%N)) l.
Lemma not_ext_b_ok l b p sz a : not_ext_b l b p sz a = true -> ~ extends l b p sz a.
Proof.
  intros H (sz0 & He & Hl & _). apply elem_of_list_In in He. unfold not_ext_b in H. rewrite List.forallb_forall in H. specialize (H _ He). cbn [fst snd mi_size] in H.
  rewrite N.eqb_refl in H. apply N.ltb_lt in Hl. by rewrite Hl in H.
Qed.
Example C52_hyps_met :
  as_all_ok true [] ex_as /\
  mas_answers [] ex_as =
    [Ok AnMapped; Ok AnMapped; Ok AnMapped; Err (AlreadyMapped 0x1000); Err (AlreadyMapped 0x201000); Ok (AnResolved 0x5ff123 ma_write_);
     Ok (AnAdjusted 0x200000 0x200000); Err (AlreadyMapped 0x200000); Ok (AnResolved 0x400000 ma_execute);
     Ok (AnFlush 0x200000 0x400000 0x200000 ma_execute); Err NotMapped; Ok AnMapped; Err InvalidFrame; Err InvalidBase; Err InvalidBase; Ok (AnResolved 0x5fff ma_write_)] /\
  vs_answers true true vs_init ex_as =
    [Ok AnMapped; Ok AnMapped; Ok AnMapped; Err (AlreadyMapped 0x1000); Err (AlreadyMapped 0x200000); Ok (AnResolved 0x5ff123 ma_write_);
     Ok (AnAdjusted 0x200000 0x200000); Err (AlreadyMapped 0x200000); Ok (AnResolved 0x400000 ma_execute);
     Ok (AnFlush 0x200000 0x400000 0x200000 ma_execute); Err NotMapped; Ok AnMapped; Err InvalidFrame; Err InvalidBase; Err InvalidBase; Ok (AnResolved 0x5fff ma_write_)].
Proof.
  split; [|split; vm_compute; reflexivity]. unfold ex_as.
  repeat (split; [cbn [as_ok]; split_and?; try done; try (right; done); try (left; done);
    match goal with |- ~ extends _ _ _ _ _ => apply not_ext_b_ok; vm_compute; reflexivity | |- _ => idtac end|]). done.
Qed.

(** Not the same: a map that would extend a mapping.  Both accept it, but only the reference has
    the new addresses mapped; the calls are among those that the project's random test makes. *)
Theorem C52_extension_refuted :
  exists os r1 r2, os = [AMap 0 0 0x1000 ma_user; AMap 0 0 0x200000 ma_user; AResolve 0x1000] /\
    mas_answers [] os = r1 /\ vs_answers true true vs_init os = r2 /\
    last r1 = Some (Ok (AnResolved 0x1000 ma_user)) /\ last r2 = Some (Err NotMapped).
Proof. eexists _, _, _. split; [reflexivity|]. split; [reflexivity|]. split; [reflexivity|]. split; vm_compute; reflexivity. Qed.
Print Assumptions C52_extension_refuted.

(** An unaligned address: the error differs if nothing is mapped there. *)
Theorem C52_unaligned_unmap_refuted :
  exists os r1 r2, os = [AMap 0 0 0x1000 ma_user; AUnmap 0x1001] /\
    mas_answers [] os = r1 /\ vs_answers true true vs_init os = r2 /\
    last r1 = Some (Err InvalidBase) /\ last r2 = Some (Err NotMapped).
Proof. eexists _, _, _. split; [reflexivity|]. split; [reflexivity|]. split; [reflexivity|]. split; vm_compute; reflexivity. Qed.
Print Assumptions C52_unaligned_unmap_refuted.

(** A mapping without any right can be read. *)
Theorem C52_no_rights_refuted :
  exists os r1 r2 a, ma_present a = false /\ os = [AMap 0 0 0x1000 a; AResolve 0] /\
    mas_answers [] os = r1 /\ vs_answers true true vs_init os = r2 /\
    last r1 = Some (Ok (AnResolved 0 a)) /\ exists a', last r2 = Some (Ok (AnResolved 0 a')) /\ ma_present a' = true.
Proof.
  exists [AMap 0 0 0x1000 ma_none; AResolve 0]. eexists _, _, ma_none.
  split; [reflexivity|]. split; [reflexivity|]. split; [reflexivity|]. split; [reflexivity|]. split; [vm_compute; reflexivity|].
  eexists. split; [vm_compute; reflexivity|]. reflexivity.
Qed.
Print Assumptions C52_no_rights_refuted.

(** A frame of several pages: unmap removes one page only, and a later map of the freed range
    stops the kernel. *)
Theorem C52_several_pages_refuted :
  exists os r1 r2, os = [AMap 0 0x10000 0x2000 ma_write_; AUnmap 0; AResolve 0x1000; AMap 0x1000 0x30000 0x1000 ma_write_] /\
    mas_answers [] os = r1 /\ vs_answers true true vs_init os = r2 /\
    r1 = [Ok AnMapped; Ok (AnFlush 0 0x10000 0x2000 ma_write_); Err NotMapped; Ok AnMapped] /\
    r2 = [Ok AnMapped; Ok (AnFlush 0 0x10000 0x1000 ma_write_); Ok (AnResolved 0x11000 ma_write_); Panic].
Proof. eexists _, _, _. split; [reflexivity|]. split; [reflexivity|]. split; [reflexivity|]. split; vm_compute; reflexivity. Qed.
Print Assumptions C52_several_pages_refuted.
