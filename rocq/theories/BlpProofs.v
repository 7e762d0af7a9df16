(** Lemmas about the memory the bootloader maps. *)
From Verif Require Import Base VsModel VsProofs ElfModel BlvModel BlvSpec BlvProofs BlvProps BliModel BliProofs BlpModel BlpSpec.
Local Arguments bl_map : simpl never.
Local Arguments N.pow : simpl never.

(** A sequence of maps: virtual base, physical base, size, rights. *)
Record job := Jb { j_va : N; j_pa : N; j_len : N; j_act : bact }.
Definition do_job (t : gmap N (gmap N pdpte)) (j : job) : res (gmap N (gmap N pdpte)) :=
  bl_map t (j_va j) (j_pa j) (j_len j) (j_act j).
Definition job_in (j : job) (va : N) : Prop := in_range (j_va j) (j_len j) va.
Definition job_ok (j : job) : Prop :=
  (j_va j mod 4096 = 0)%N /\ (j_pa j mod 4096 = 0)%N /\ (j_len j mod 4096 = 0)%N /\ (0 < j_len j)%N /\
  (j_va j + j_len j <= 2 ^ 48)%N /\ j_act j <> BNone.
Fixpoint djs (l : list job) : Prop :=
  match l with
  | [] => True
  | j :: l => (forall j' va, j' ∈ l -> job_in j va -> ~ job_in j' va) /\ djs l
  end.
Lemma djs_app l1 l2 : djs l1 -> djs l2 -> (forall j j' va, j ∈ l1 -> j' ∈ l2 -> job_in j va -> ~ job_in j' va) -> djs (l1 ++ l2).
Proof.
  induction l1 as [|j l1 IH]; intros D1 D2 X; [done|]. destruct D1 as [D1 D1']. split.
  - intros j' va J. apply elem_of_app in J as [J|J]; [by apply D1|]. apply X; [by left|done].
  - apply IH; [done|done|]. intros a b va A. apply X. by right.
Qed.
Lemma jobs_ok l : forall t, Forall job_ok l -> djs l -> (forall j, j ∈ l -> free_range t (j_va j) (j_len j)) ->
  exists t', rfold do_job t l = Ok t' /\
    (forall j va, j ∈ l -> job_in j va -> forall w x,
       access t' va false w x = if asks_kernel (j_act j) w x then Some (j_pa j + (va - j_va j))%N else None) /\
    (forall va, (va < 2 ^ 48)%N -> (forall j, j ∈ l -> ~ job_in j va) -> same_at t t' va).
Proof.
  induction l as [|j l IH]; intros t F D Fr.
  { exists t. split; [done|]. split; [intros j va J; by apply elem_of_nil in J|done]. }
  apply stdpp.list.Forall_cons in F as [(A1 & A2 & A3 & A4 & A5 & A6) F]. destruct D as [D D'].
  rewrite rfold_cons. unfold do_job at 1.
  destruct (C58_free t (j_va j) (j_pa j) (j_len j) (j_act j)) as [t1 E1]; try done; [apply Fr; by left|].
  rewrite E1. pose proof (bl_maps _ _ _ _ _ _ A5 E1) as V.
  destruct (IH t1 F D') as (t' & E' & I1 & I2).
  { intros j' J' va R. eapply stdpp.list.Forall_forall in F as (_ & _ & _ & _ & B & _); [|exact J'].
    destruct (V va) as [_ V2]; [destruct R; lia|]. rewrite (proj1 (V2 (fun Rh => D j' va J' Rh R))). apply (Fr j'); [by right|done]. }
  exists t'. split; [done|]. split.
  - intros j' va J R w x. apply elem_of_cons in J as [->|J]; [|by apply I1].
    assert (va < 2 ^ 48)%N as Hva by (destruct R; lia).
    destruct (I2 va Hva) as [_ S2]; [intros j' J'; by apply D|]. rewrite S2.
    destruct (V va Hva) as [V1 _]. by apply V1.
  - intros va Hva Hn. destruct (I2 va Hva) as [S1 S2]; [intros g G; apply Hn; by right|].
    destruct (V va Hva) as [_ V2]. destruct V2 as [V3 V4]; [apply Hn; by left|].
    split; [by rewrite S1|]. intros u w x. by rewrite S2.
Qed.

Lemma rfold_app {A B} (f : A -> B -> res A) l1 l2 : forall a,
  rfold f a (l1 ++ l2) = match rfold f a l1 with Ok b => rfold f b l2 | e => e end.
Proof. induction l1 as [|x l1 IH]; intros a; cbn [rfold app]; [done|]. destruct (f a x); [apply IH|done|done]. Qed.
Lemma offset_map t off b n a : bl_map_offset t off b (b + n) a = bl_map t (off + b) b n a.
Proof.
  unfold bl_map_offset. destruct (N.ltb_spec (b + n) b); [lia|]. f_equal. lia.
Qed.

Definition desc_jobs (d : udesc) : list job :=
  if p_skip d then [] else if bool_decide (p_rights (ud_ty d) = BNone) then []
  else Jb (ud_start d) (ud_start d) (ud_len d) (p_rights (ud_ty d)) ::
       if p_kernel (ud_ty d) then [Jb (KOFF + ud_start d) (ud_start d) (ud_len d) (p_rights (ud_ty d))] else [].
Lemma p_map1_jobs t d : p_map1 t d = rfold do_job t (desc_jobs d).
Proof.
  unfold p_map1, desc_jobs. destruct (p_skip d); [done|]. destruct (bool_decide _); [done|].
  unfold bl_map_identity. rewrite offset_map. rewrite rfold_cons. unfold do_job at 1. cbn [j_va j_pa j_len j_act].
  rewrite N.add_0_l. destruct (bl_map t (ud_start d) _ _ _) as [t1| |]; [|done|done].
  destruct (p_kernel (ud_ty d)); [|done]. rewrite offset_map, rfold_cons. unfold do_job at 1. cbn [j_va j_pa j_len j_act].
  by destruct (bl_map t1 _ _ _ _).
Qed.
Lemma p_map_jobs ds : forall t, p_map t ds = rfold do_job t (flat_map desc_jobs ds).
Proof.
  unfold p_map. induction ds as [|d ds IH]; intros t; [done|]. rewrite rfold_cons. cbn [flat_map].
  rewrite rfold_app, p_map1_jobs. destruct (rfold do_job t (desc_jobs d)); [apply IH|done|done].
Qed.
Definition stack_jobs (s : N) : list job :=
  [Jb (KOFF + s) s 4096 BReadUser; Jb (KOFF + (s + 4096)) (s + 4096) (STACK - 4096) BReadWriteKernel].
Lemma p_stack_jobs t s : p_stack t s = rfold do_job t (stack_jobs s).
Proof.
  unfold p_stack, stack_jobs. rewrite offset_map. cbn [rfold]. unfold do_job. cbn [j_va j_pa j_len j_act].
  destruct (bl_map t _ _ _ _) as [t1| |]; [|done|done].
  replace (s + STACK)%N with (s + 4096 + (STACK - 4096))%N by (unfold STACK; lia).
  rewrite offset_map. by destruct (bl_map t1 _ _ _ _).
Qed.
Lemma p_boot_jobs t s ds : p_boot t s ds = rfold do_job t (stack_jobs s ++ flat_map desc_jobs ds).
Proof.
  unfold p_boot. rewrite p_stack_jobs, rfold_app. destruct (rfold do_job t (stack_jobs s)); [apply p_map_jobs|done|done].
Qed.

Definition desc_ok (d : udesc) : Prop :=
  (ud_start d mod 4096 = 0)%N /\ (0 < ud_pages d)%N /\ (ud_start d + ud_len d <= 2 ^ 46)%N.
Lemma in_flat {A B} (f : A -> list B) l y : y ∈ flat_map f l <-> exists x, x ∈ l /\ y ∈ f x.
Proof.
  rewrite elem_of_list_In, in_flat_map. setoid_rewrite elem_of_list_In. done.
Qed.
Lemma desc_job_in d j va : j ∈ desc_jobs d -> job_in j va -> desc_ok d ->
  (in_desc d va /\ (va < 2 ^ 46)%N) \/ (p_kernel (ud_ty d) = true /\ (2 ^ 46 <= va)%N /\ in_desc d (va - 2 ^ 46)).
Proof.
  unfold desc_jobs. intros J R (_ & _ & B). destruct (p_skip d); [by apply elem_of_nil in J|].
  destruct (bool_decide _); [by apply elem_of_nil in J|].
  apply elem_of_cons in J as [->|J].
  - left. destruct R as [R1 R2]. cbn in *. split; [by split|lia].
  - right. destruct (p_kernel (ud_ty d)) eqn:E; [|by apply elem_of_nil in J]. apply elem_of_list_singleton in J as ->.
    destruct R as [R1 R2]. unfold KOFF in *. cbn in *. split; [done|]. split; [lia|]. split; lia.
Qed.
Lemma desc_jobs_ok d : desc_ok d -> Forall job_ok (desc_jobs d) /\ djs (desc_jobs d).
Proof.
  intros (A & P & B). unfold desc_jobs. destruct (p_skip d); [split; [constructor|done]|].
  destruct (bool_decide _) eqn:Eb; [split; [constructor|done]|]. apply bool_decide_eq_false in Eb.
  assert (L : (ud_len d mod 4096 = 0)%N) by (apply N.mod_mul; lia).
  assert (P' : (0 < ud_len d)%N) by (unfold ud_len; lia).
  assert (O : ((KOFF + ud_start d) mod 4096 = 0)%N) by (apply mod_add_zero; [lia|done|done]).
  destruct (p_kernel (ud_ty d)).
  - split.
    + constructor; [|constructor; [|constructor]]; unfold job_ok; cbn [j_va j_pa j_len j_act].
      * split; [done|]. split; [done|]. split; [done|]. split; [done|]. split; [lia|done].
      * split; [done|]. split; [done|]. split; [done|]. split; [done|]. split; [unfold KOFF; lia|done].
    + split; [|split; [|done]].
      * intros j' va J [R1 R2]. apply elem_of_list_singleton in J as ->. intros [R3 R4].
        unfold KOFF in *. cbn in *. lia.
      * intros j' va J. by apply elem_of_nil in J.
  - split.
    + constructor; [|constructor]; unfold job_ok; cbn [j_va j_pa j_len j_act].
      split; [done|]. split; [done|]. split; [done|]. split; [done|]. split; [lia|done].
    + split; [|done]. intros j' va J. by apply elem_of_nil in J.
Qed.
Lemma descs_jobs_ok ds : Forall desc_ok ds ->
  (forall i j d d' x, ds !! i = Some d -> ds !! j = Some d' -> in_desc d x -> in_desc d' x -> i = j) ->
  Forall job_ok (flat_map desc_jobs ds) /\ djs (flat_map desc_jobs ds).
Proof.
  induction ds as [|d ds IH]; intros F A; [cbn; split; [constructor|done]|].
  apply stdpp.list.Forall_cons in F as [Fd F]. cbn [flat_map].
  destruct (desc_jobs_ok d Fd) as [J1 J2].
  destruct IH as [I1 I2]; [done| |].
  { intros i j x y z X Y U W. by injection (A (S i) (S j) x y z X Y U W). }
  split; [by apply stdpp.list.Forall_app|]. apply djs_app; [done|done|].
  intros j j' va Hj Hj' R R'. apply in_flat in Hj' as (d' & D' & Hj').
  eapply stdpp.list.Forall_forall in F as Fd'; [|exact D'].
  apply elem_of_list_lookup in D' as [i Di].
  assert (N0 : forall x, in_desc d x -> in_desc d' x -> False).
  { intros x X Y. by pose proof (A 0 (S i) d d' x eq_refl Di X Y). }
  destruct (desc_job_in d j va Hj R Fd) as [[X1 X2]|(X1 & X2 & X3)];
    destruct (desc_job_in d' j' va Hj' R' Fd') as [[Y1 Y2]|(Y1 & Y2 & Y3)]; try lia; by eapply N0.
Qed.
Lemma p_kernel_needs ty : p_kernel ty = true <-> kernel_needs ty.
Proof.
  unfold kernel_needs. destruct ty; cbn; split; intros H; try done; try tauto;
    destruct H as [H|[H|[H|[H|[H|H]]]]]; discriminate H.
Qed.
Lemma rights_asks ty w x : asks_kernel (p_rights ty) w x = desc_asks ty w x.
Proof. by destruct ty, w, x. Qed.
Lemma usable_rights ty : usable ty = true -> p_rights ty <> BNone. Proof. by destruct ty. Qed.
