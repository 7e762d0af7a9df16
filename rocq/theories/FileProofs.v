(** Proofs about FileModel: the buffer list refines a flat byte array. *)
From Verif Require Import Base FileModel FileSpec.

(** Representation invariant: every buffer but the last is full, the last one
    is non-empty and not over-full. *)
Inductive wf_buffers (ps : nat) : list (list N) -> Prop :=
| wfb_nil : wf_buffers ps []
| wfb_one b : 0 < length b <= ps -> wf_buffers ps [b]
| wfb_cons b c l : length b = ps -> wf_buffers ps (c :: l) -> wf_buffers ps (b :: c :: l).

(** Overwrite in place. *)
Definition splice (o : nat) (d c : list N) : list N :=
  take o c ++ d ++ drop (o + length d) c.

Definition pad (n : nat) (c : list N) : list N := c ++ replicate (n - length c) 0%N.

Lemma update_last_app {A} (g : A -> A) l x : update_last g (l ++ [x]) = l ++ [g x].
Proof.
  induction l as [|y l IH]; [done|].
  destruct l as [|z l]; [done|]. cbn [app] in *. cbn. f_equal. apply IH.
Qed.

Lemma wf_snoc_inv ps l x :
  wf_buffers ps (l ++ [x]) -> Forall (fun b => length b = ps) l /\ 0 < length x <= ps.
Proof.
  induction l as [|y l IH]; intros H; cbn in H.
  - inversion H; subst; auto.
  - destruct l as [|z l]; cbn in *; inversion H; subst; destruct IH; auto.
Qed.

Lemma wf_snoc ps l x :
  Forall (fun b => length b = ps) l -> 0 < length x <= ps -> wf_buffers ps (l ++ [x]).
Proof.
  induction l as [|y l IH]; intros H Hx; cbn; [by constructor|].
  apply Forall_cons in H as [H1 H2]. specialize (IH H2 Hx).
  destruct (l ++ [x]) eqn:E; [destruct l; discriminate|].
  constructor; auto.
Qed.

Lemma full_wf ps l : 0 < ps -> Forall (fun b => length b = ps) l -> wf_buffers ps l.
Proof.
  intros Hps. destruct l as [|x l _] using rev_ind; [constructor|].
  intros H. apply Forall_app in H as [H1 H2]. inversion H2; subst.
  apply wf_snoc; auto; lia.
Qed.

Lemma concat_full_length ps (l : list (list N)) :
  Forall (fun b => length b = ps) l -> length (concat l) = length l * ps.
Proof. induction 1; cbn; rewrite ?app_length; lia. Qed.

Lemma concat_snoc {A} (l : list (list A)) x : concat (l ++ [x]) = concat l ++ x.
Proof. rewrite concat_app. cbn. by rewrite app_nil_r. Qed.

Lemma get_size_content ps l :
  wf_buffers ps l -> get_size ps l = length (concat l).
Proof.
  intros H. destruct l as [|x l _] using rev_ind; [done|].
  apply wf_snoc_inv in H as [Hf Hx].
  rewrite concat_snoc, app_length, (concat_full_length ps) by done.
  unfold get_size. rewrite app_length; cbn [length].
  replace (length l + 1 - 1) with (length l) by lia.
  rewrite list_lookup_middle by done. cbn [default].
  destruct (length l) as [|n] eqn:E; cbn [Nat.add].
  - destruct l; [cbn; lia|discriminate].
  - rewrite Nat.add_1_r. unfold id. destruct (length x) eqn:Ex; lia.
Qed.

Lemma vec_resize_grow n b : length b <= n -> vec_resize n b = pad n b.
Proof. intros. unfold vec_resize, pad. by rewrite take_ge by lia. Qed.

Lemma pad_length n c : length (pad n c) = Nat.max n (length c).
Proof. unfold pad. rewrite app_length, replicate_length. lia. Qed.

Lemma vec_resize_length n b : length (vec_resize n b) = n.
Proof. unfold vec_resize. rewrite app_length, take_length, replicate_length. lia. Qed.

Lemma vec_resize_shrink_replicate n m :
  n <= m -> vec_resize n (replicate m 0%N) = replicate n 0%N.
Proof.
  intros. unfold vec_resize. rewrite take_replicate, replicate_length.
  replace (n `min` m) with n by lia. replace (n - m) with 0 by lia. cbn. by rewrite app_nil_r.
Qed.

Lemma concat_replicate_replicate n ps (x : N) :
  concat (replicate n (replicate ps x)) = replicate (n * ps) x.
Proof.
  induction n; cbn; [done|]. rewrite IHn, replicate_add. done.
Qed.

Lemma ceil_spec b ps : 0 < ps -> 
  b <= ceil b ps * ps /\ ceil b ps * ps < b + ps.
Proof.
  intros. unfold ceil.
  pose proof (Nat.div_mod b ps ltac:(lia)).
  pose proof (Nat.mod_upper_bound b ps ltac:(lia)).
  case_decide; nia.
Qed.

Lemma ceil_pos b ps : 0 < ps -> 0 < b -> 0 < ceil b ps.
Proof. intros H1 H2. destruct (ceil_spec b ps H1). nia. Qed.

(** Number of fresh buffers a growth to [new] needs. *)
Definition buffers_needed (ps : nat) (l : list (list N)) (new : nat) : nat :=
  let free := match last l with Some b => ps - length b | None => 0 end in
  ceil (new - length (concat l) - free) ps.

Lemma increase_spec ps avail l new :
  0 < ps -> wf_buffers ps l -> length (concat l) < new ->
  let r := increase_file_size ps avail l (length (concat l)) new in
  wf_buffers ps r.2 /\
  (if decide (avail < buffers_needed ps l new)
   then r.1 = false /\
        concat r.2 = pad (Nat.min new (length l * ps)) (concat l)
   else r.1 = true /\ concat r.2 = pad new (concat l)).
Proof.
  intros Hps Hwf Hnew r. subst r. unfold increase_file_size, buffers_needed.
  rewrite decide_False by lia.
  destruct l as [|x l _] using rev_ind.
  - (* empty file *)
    cbn [last concat length]. rewrite decide_False by (cbn; lia).
    cbn [last Nat.sub]. rewrite !Nat.sub_0_r.
    set (nb := ceil new ps).
    destruct (ceil_spec new ps Hps) as [Hc1 Hc2]; fold nb in Hc1, Hc2.
    cbn [length] in *.
    assert (Hnb : 0 < nb) by nia.
    case_decide.
    { cbn. split; [constructor|]. split; [done|].
      unfold pad. cbn. replace (new `min` 0 - 0) with 0 by lia. done. }
    cbn [fst snd app].
    destruct nb as [|nb']; [lia|].
    replace (S nb' - 1) with nb' by lia.
    rewrite <- Nat.add_1_r, replicate_add. cbn [replicate].
    case_decide as Hmod.
    + rewrite update_last_app. cbn [get_size length].
      rewrite vec_resize_shrink_replicate by lia.
      split.
      * apply wf_snoc; [apply Forall_replicate; by rewrite replicate_length|].
        rewrite replicate_length. cbn.
        assert (new <> (nb' + 1) * ps).
        { intros ->. rewrite Nat.mod_mul in Hmod by lia. done. }
        assert (nb' * ps < new) by nia. lia.
      * split; [done|]. rewrite concat_snoc, concat_replicate_replicate.
        unfold pad. cbn [length app]. rewrite <- replicate_add. f_equal. cbn. 
        assert (nb' * ps < new) by nia. lia.
    + split.
      * apply wf_snoc; [apply Forall_replicate; by rewrite replicate_length|].
        rewrite replicate_length; lia.
      * split; [done|]. rewrite concat_snoc, concat_replicate_replicate.
        unfold pad. cbn [length app]. rewrite <- replicate_add. f_equal.
        assert (new mod ps = 0) as Hm by (destruct (decide (new mod ps = 0)); tauto).
        apply Nat.mod_divides in Hm as [k ->]; [|lia].
        assert (k = nb' + 1) by nia. subst. lia.
  - rewrite last_snoc. apply wf_snoc_inv in Hwf as [Hf Hx].
    rewrite !concat_snoc, !app_length in *. cbn [length] in *.
    rewrite (concat_full_length ps) in * by done.
    set (cl := length l * ps + length x) in *.
    case_decide as Hfit.
    + cbn [fst snd]. rewrite update_last_app.
      rewrite vec_resize_grow by lia.
      split.
      { apply wf_snoc; [done|]. rewrite pad_length. lia. }
      replace (new - cl - (ps - length x)) with 0 by lia.
      assert (ceil 0 ps = 0) as ->.
      { unfold ceil. rewrite Nat.div_0_l by lia. by rewrite decide_False by lia. }
      rewrite decide_False by lia. split; [done|].
      rewrite concat_snoc. unfold pad. rewrite app_length, (concat_full_length ps) by done.
      rewrite <- app_assoc. do 2 f_equal. f_equal. subst cl. lia.
    + rewrite !update_last_app.
      assert (match l ++ [x] with [] => l ++ [x] | _ :: _ => l ++ [vec_resize ps x] end
              = l ++ [vec_resize ps x]) as -> by (destruct l; done).
      set (l1 := l ++ [vec_resize ps x]).
      assert (Hl1 : Forall (fun b => length b = ps) l1).
      { apply Forall_app; split; [done|]. constructor; [|constructor].
        apply vec_resize_length. }
      assert (Hl1len : length l1 = length l + 1) by (subst l1; by rewrite app_length).
      assert (Hc1 : concat l1 = pad ((length l + 1) * ps) (concat l ++ x)).
      { subst l1. rewrite concat_snoc, vec_resize_grow by lia. unfold pad.
        rewrite <- app_assoc. do 3 f_equal. rewrite app_length, (concat_full_length ps) by done. lia. }
      set (rem := new - cl - (ps - length x)).
      assert (Hrem : rem = new - (length l + 1) * ps) by (subst rem cl; lia).
      assert (Hrem0 : 0 < rem) by lia.
      destruct (ceil_spec rem ps Hps) as [Ha Hb].
      set (nb := ceil rem ps) in *.
      case_decide as Hav.
      { cbn [fst snd]. split; [by apply full_wf|]. split; [done|].
        rewrite Hc1. f_equal. lia. }
      cbn [fst snd].
      assert (Hnb : 0 < nb) by nia.
      destruct nb as [|nb']; [lia|].
      replace (S nb' - 1) with nb' by lia.
      rewrite <- Nat.add_1_r, replicate_add. cbn [replicate].
      rewrite get_size_content by (by apply full_wf).
      rewrite (concat_full_length ps) by done. rewrite Hl1len.
      assert (Hlo : nb' * ps < rem) by nia.
      assert (Hnewge : new = (length l + 1) * ps + rem) by lia.
      case_decide as Hmod.
      * rewrite update_last_app, vec_resize_shrink_replicate by lia.
        rewrite app_assoc. split.
        { apply wf_snoc.
          - apply Forall_app; split; [done|]. apply Forall_replicate. by rewrite replicate_length.
          - rewrite replicate_length.
            assert (new <> (length l + 1 + (nb' + 1)) * ps).
            { intros E. rewrite E, Nat.mod_mul in Hmod by lia. done. }
            nia. }
        split; [done|].
        rewrite concat_snoc, concat_app, concat_replicate_replicate, Hc1.
        unfold pad. rewrite <- !app_assoc, <- !replicate_add. do 3 f_equal.
        rewrite app_length, (concat_full_length ps) by done. subst cl. nia.
      * rewrite app_assoc. split.
        { apply wf_snoc.
          - apply Forall_app; split; [done|]. apply Forall_replicate. by rewrite replicate_length.
          - rewrite replicate_length. lia. }
        split; [done|].
        rewrite concat_snoc, concat_app, concat_replicate_replicate, Hc1.
        unfold pad. rewrite <- !app_assoc, <- !replicate_add. do 3 f_equal.
        rewrite app_length, (concat_full_length ps) by done.
        assert (new mod ps = 0) as Hm by (destruct (decide (new mod ps = 0)); tauto).
        apply Nat.mod_divides in Hm as [k Hk]; [|lia].
        assert (k = length l + 1 + nb' + 1) by nia. subst cl. nia.
Qed.

Lemma wf_app_inv ps l1 b l2 :
  wf_buffers ps (l1 ++ b :: l2) ->
  Forall (fun b => length b = ps) l1 /\ wf_buffers ps (b :: l2).
Proof.
  induction l1 as [|y l1 IH]; intros H; cbn in H; [auto|].
  destruct l1 as [|z l1]; cbn in *; inversion H; subst; auto.
  destruct IH; auto.
Qed.

Lemma wf_app ps l1 b l2 :
  Forall (fun b => length b = ps) l1 -> wf_buffers ps (b :: l2) ->
  wf_buffers ps (l1 ++ b :: l2).
Proof.
  induction l1 as [|y l1 IH]; intros H1 H2; cbn; [done|].
  apply Forall_cons in H1 as [Hy H1]. specialize (IH H1 H2).
  destruct l1; cbn in *; by constructor.
Qed.

Lemma wf_cons_inv ps b l2 :
  wf_buffers ps (b :: l2) -> 0 < ps ->
  0 < length b <= ps /\ (l2 = [] \/ length b = ps) /\ wf_buffers ps l2.
Proof. intros H ?. inversion H; subst; repeat split; auto; try lia. constructor. Qed.

Lemma wf_cons_replace ps b b' l2 :
  wf_buffers ps (b :: l2) -> length b' = length b -> wf_buffers ps (b' :: l2).
Proof. intros H E. inversion H; subst; constructor; auto; lia. Qed.

Lemma wf_locate ps l bn off :
  0 < ps -> wf_buffers ps l -> off < ps -> bn * ps + off < length (concat l) ->
  exists l1 b l2, l = l1 ++ b :: l2 /\ length l1 = bn /\ length (concat l1) = bn * ps /\
    Forall (fun b => length b = ps) l1 /\ wf_buffers ps (b :: l2) /\ off < length b.
Proof.
  intros Hps Hwf Hoff Hlt.
  assert (Hlen : length (concat l) <= length l * ps).
  { destruct l as [|x l _] using rev_ind; [cbn; lia|].
    apply wf_snoc_inv in Hwf as [Hf Hx].
    rewrite concat_snoc, !app_length, (concat_full_length ps) by done. cbn. lia. }
  assert (Hbn : bn < length l) by nia.
  destruct (lookup_lt_is_Some_2 _ _ Hbn) as [b Hb].
  pose proof (take_drop_middle l bn b Hb) as E.
  exists (take bn l), b, (drop (S bn) l).
  rewrite <- E in Hwf. apply wf_app_inv in Hwf as [Hf Hw].
  assert (length (take bn l) = bn) by (rewrite take_length; lia).
  assert (length (concat (take bn l)) = bn * ps).
  { rewrite (concat_full_length ps) by done. lia. }
  repeat split; auto.
  apply wf_cons_inv in Hw as (Hb' & [Hl|Hl] & _); [|lia|lia].
  rewrite <- E, Hl in Hlt. rewrite concat_snoc, app_length in Hlt. lia.
Qed.

Lemma splice_length o d c : o + length d <= length c -> length (splice o d c) = length c.
Proof. intros. unfold splice. rewrite !app_length, take_length, drop_length. lia. Qed.

Lemma splice_nil o c : splice o [] c = c.
Proof. unfold splice. cbn. rewrite Nat.add_0_r. apply take_drop. Qed.

Lemma splice_app_mid o d a b c :
  o + length d <= length b -> 
  splice (length a + o) d (a ++ b ++ c) = a ++ splice o d b ++ c.
Proof.
  intros. unfold splice.
  rewrite (take_add_app a) by done; rewrite take_app_le by lia.
  rewrite <- Nat.add_assoc, (drop_add_app a) by done; rewrite drop_app_le by lia.
  by rewrite <- !app_assoc.
Qed.

Lemma splice_lookup o d c i :
  o + length d <= length c ->
  splice o d c !! i = if decide (o <= i < o + length d) then d !! (i - o) else c !! i.
Proof.
  intros. unfold splice. case_decide.
  - rewrite lookup_app_r by (rewrite take_length; lia).
    rewrite take_length. rewrite lookup_app_l by lia. f_equal. lia.
  - destruct (decide (i < o)).
    + rewrite lookup_app_l by (rewrite take_length; lia). by apply lookup_take.
    + rewrite lookup_app_r by (rewrite take_length; lia).
      rewrite lookup_app_r by (rewrite take_length; lia).
      rewrite lookup_drop, take_length. f_equal. lia.
Qed.

Lemma splice_splice o d1 d2 c :
  o + length d1 + length d2 <= length c ->
  splice (o + length d1) d2 (splice o d1 c) = splice o (d1 ++ d2) c.
Proof.
  intros H. apply list_eq. intros i.
  rewrite !splice_lookup; rewrite ?splice_length; rewrite ?app_length; try lia.
  repeat case_decide; try lia; try done.
  - rewrite lookup_app_r by lia. f_equal. lia.
  - rewrite lookup_app_l by lia. done.
Qed.

Lemma copy_into_splice (b d : list N) o :
  o + length d <= length b -> copy_into b o d = Some (splice o d b).
Proof. intros. unfold copy_into. by rewrite decide_True by lia. Qed.

Lemma write_loop_spec ps data fuel l bn off copied :
  0 < ps -> wf_buffers ps l -> off < ps -> copied <= length data ->
  bn * ps + off + (length data - copied) <= length (concat l) ->
  length data - copied < fuel ->
  exists l', write_loop ps fuel l data bn off copied = Some l' /\
    wf_buffers ps l' /\
    concat l' = splice (bn * ps + off) (drop copied data) (concat l).
Proof.
  intros Hps. revert l bn off copied.
  induction fuel as [|fuel IH]; intros l bn off copied Hwf Hoff Hc Hle Hfuel; [lia|].
  cbn [write_loop]. case_decide as Hlt.
  2:{ exists l. split; [done|]. split; [done|].
      rewrite drop_ge by lia. by rewrite splice_nil. }
  destruct (wf_locate ps l bn off) as (l1 & b & l2 & -> & Hl1 & Hcl1 & Hf & Hwb & Hob);
    auto; [lia|].
  subst bn. rewrite list_lookup_middle by done. cbn [mbind option_bind].
  set (n := if decide (ps - off <= length data - copied) then ps - off else length data - copied).
  assert (Hn : 0 < n /\ n <= ps - off /\ n <= length data - copied).
  { subst n. case_decide; lia. }
  assert (Hnd : length (take n (drop copied data)) = n).
  { rewrite take_length, drop_length. lia. }
  destruct (wf_cons_inv ps b l2 Hwb Hps) as (Hb & Hlast & Hw2).
  assert (Hbn : off + n <= length b).
  { destruct Hlast as [-> | ->]; [|lia].
    rewrite concat_snoc, app_length in Hle. lia. }
  rewrite copy_into_splice by lia. cbn.
  rewrite insert_app_r_alt by lia. rewrite Nat.sub_diag. cbn [list_insert insert].
  set (b' := splice off (take n (drop copied data)) b).
  assert (Hb' : length b' = length b) by (apply splice_length; lia).
  assert (Hconc : concat (l1 ++ b' :: l2)
            = splice (length l1 * ps + off) (take n (drop copied data)) (concat (l1 ++ b :: l2))).
  { rewrite !concat_app. cbn [concat]. rewrite <- Hcl1. rewrite splice_app_mid by lia. done. }
  assert (Hlen' : length (concat (l1 ++ b' :: l2)) = length (concat (l1 ++ b :: l2))).
  { rewrite Hconc, splice_length; lia. }
  assert (Hw' : wf_buffers ps (l1 ++ b' :: l2)).
  { apply wf_app; [done|]. by eapply wf_cons_replace. }
  destruct (decide (copied + n < length data)) as [Hmore|Hdone].
  - assert (n = ps - off) as Hn'. { subst n. case_decide; lia. }
    destruct (IH (l1 ++ b' :: l2) (S (length l1)) 0 (copied + n)) as (l' & E & Hwl & Hcc);
      [done|lia|lia|lia|lia|].
    exists l'. split; [done|]. split; [done|].
    rewrite Hcc, Hconc.
    replace (S (length l1) * ps + 0) with (length l1 * ps + off + length (take n (drop copied data))) by lia.
    rewrite splice_splice by (rewrite Hnd, drop_length; lia).
    f_equal. rewrite <- drop_drop. apply take_drop.
  - destruct fuel as [|fuel]; cbn [write_loop]; (rewrite decide_False by lia);
    exists (l1 ++ b' :: l2); (split; [done|]); (split; [done|]);
    rewrite Hconc; f_equal; apply take_ge; rewrite drop_length; lia.
Qed.

Lemma div_split k ps : 0 < ps ->
  (k / ps) * ps + (k - (k / ps) * ps) = k /\ k - (k / ps) * ps < ps.
Proof.
  intros. pose proof (Nat.div_mod k ps ltac:(lia)).
  pose proof (Nat.mod_upper_bound k ps ltac:(lia)). nia.
Qed.

(** Main write theorem at the file level. *)
Lemma write_file_spec ps avail f data start :
  0 < ps -> wf_buffers ps (mcache f) ->
  let r := write_file ps avail f data start in
  let c := concat (mcache f) in
  let new := start + length data in
  wf_buffers ps (mcache r.2) /\ fmodes r.2 = fmodes f /\
  if decide (length c < new /\ avail < buffers_needed ps (mcache f) new)
  then r.1 = Err OutOfMemory /\
       concat (mcache r.2) = pad (Nat.min new (length (mcache f) * ps)) c
  else r.1 = Ok (length data) /\
       concat (mcache r.2) = splice start data (pad new c).
Proof.
  intros Hps Hwf r c new. subst r.
  unfold write_file. rewrite get_size_content by done. fold c. fold new.
  assert (Hgo : forall l, wf_buffers ps l -> concat l = pad new c ->
    let r := match write_loop ps (S (length data)) l data (offset_to_buffernum start ps)
             (start - offset_to_buffernum start ps * ps) 0 with
             | Some l' => (Ok (length data), mkFile l' (fmodes f))
             | None => (Panic, mkFile l (fmodes f)) end in
    wf_buffers ps (mcache r.2) /\ fmodes r.2 = fmodes f /\
    (r.1 = Ok (length data) /\ concat (mcache r.2) = splice start data (pad new c))).
  { intros l Hl Hcl r.
    unfold offset_to_buffernum in r. destruct (div_split start ps Hps) as [E1 E2].
    destruct (write_loop_spec ps data (S (length data)) l (start / ps)
       (start - start / ps * ps) 0) as (l' & E & Hw & Hcc); auto; try lia.
    { rewrite Hcl, pad_length. lia. }
    subst r. rewrite E. cbn. rewrite Hcc, E1, Hcl. done. }
  destruct (decide (length c < new)) as [Hlt|Hge].
  - rewrite (decide_True (P := 0 < new /\ _)) by lia.
    destruct (increase_spec ps avail (mcache f) new Hps Hwf) as [Hw2 Hr]; [done|].
    fold c in Hw2, Hr.
    destruct (increase_file_size ps avail (mcache f) (length c) new) as [ok l] eqn:E.
    cbn [fst snd] in *.
    case_decide as Hav.
    + destruct Hr as [-> Hc2]. cbn [negb]. rewrite decide_True by lia. done.
    + destruct Hr as [-> Hc2]. cbn [negb]. rewrite decide_False by lia.
      by apply Hgo.
  - rewrite (decide_False (P := 0 < new /\ _)) by lia. cbn [negb].
    rewrite decide_False by lia. apply Hgo; [done|].
    unfold pad. replace (new - length c) with 0 by lia. cbn. by rewrite app_nil_r.
Qed.

Lemma read_loop_spec ps fuel l dst len bn off copied :
  0 < ps -> wf_buffers ps l -> off < ps -> copied <= len -> len <= length dst ->
  bn * ps + off + (len - copied) <= length (concat l) ->
  len - copied < fuel ->
  read_loop ps fuel l dst len bn off copied =
    Some (splice copied (take (len - copied) (drop (bn * ps + off) (concat l))) dst).
Proof.
  intros Hps. revert dst bn off copied.
  induction fuel as [|fuel IH]; intros dst bn off copied Hwf Hoff Hc Hd Hle Hfuel; [lia|].
  cbn [read_loop]. case_decide as Hlt.
  2:{ replace (len - copied) with 0 by lia. rewrite take_0, splice_nil. done. }
  destruct (wf_locate ps l bn off) as (l1 & b & l2 & -> & Hl1 & Hcl1 & Hf & Hwb & Hob);
    auto; [lia|].
  subst bn. rewrite list_lookup_middle by done. cbn [mbind option_bind].
  rewrite decide_False by lia.
  set (n := if decide (length b - off <= len - copied) then length b - off else len - copied).
  assert (Hn : 0 < n /\ n <= length b - off /\ n <= len - copied).
  { subst n. case_decide; lia. }
  set (d := take n (drop off b)).
  assert (Hnd : length d = n) by (subst d; rewrite take_length, drop_length; lia).
  rewrite copy_into_splice by lia. cbn.
  assert (Hdata : drop (length l1 * ps + off) (concat (l1 ++ b :: l2)) = drop off b ++ concat l2).
  { rewrite concat_app, <- Hcl1, (drop_add_app (concat l1)) by done. cbn [concat]. by rewrite drop_app_le by lia. }
  destruct (wf_cons_inv ps b l2 Hwb Hps) as (Hb & Hlast & Hw2).
  destruct (decide (copied + n < len)) as [Hmore|Hdone].
  - assert (n = length b - off) as Hn'. { subst n. case_decide; lia. }
    assert (length b = ps) as Hbps.
    { destruct Hlast as [-> | ->]; [|done]. rewrite concat_snoc, app_length in Hle. lia. }
    rewrite IH; [|done|lia|lia| |lia|lia].
    2:{ rewrite splice_length; lia. }
    f_equal.
    replace (S (length l1) * ps + 0) with (length l1 * ps + off + n) by lia.
    rewrite <- drop_drop, Hdata.
    rewrite <- Hnd at 1.
    rewrite splice_splice.
    2:{ rewrite take_length. lia. }
    f_equal. subst d. rewrite !take_ge with (l := drop off b) by (rewrite drop_length; lia).
    rewrite drop_app_ge by (rewrite drop_length; lia).
    rewrite take_app_ge by (rewrite drop_length; lia).
    rewrite drop_length. do 2 f_equal; [lia|].
    replace (n - (length b - off)) with 0 by lia. done.
  - destruct fuel as [|fuel]; cbn [read_loop]; (rewrite decide_False by lia);
    rewrite Hdata; do 2 f_equal; subst d; rewrite take_app_le by (rewrite drop_length; lia);
    f_equal; lia.
Qed.

Lemma read_file_spec ps f dst start endo :
  0 < ps -> wf_buffers ps (mcache f) ->
  start <= endo -> endo <= length (concat (mcache f)) -> endo - start <= length dst ->
  read_file ps f dst start endo =
    Ok (endo - start, splice 0 (take (endo - start) (drop start (concat (mcache f)))) dst).
Proof.
  intros Hps Hwf H1 H2 H3. unfold read_file, offset_to_buffernum.
  destruct (div_split start ps Hps) as [E1 E2].
  rewrite read_loop_spec; auto; try lia.
  rewrite E1, Nat.sub_0_r. done.
Qed.
