(** Proofs about loading a program (C42). *)
From Verif Require Import Base VsModel VsSpec VsProofs VsProps ElfModel ElfSpec.
Local Ltac elia := zify; Z.to_euclidean_division_equations; lia.

(** ** Memory seen through pages *)

(** Page [eb] of the program is backed by frame [f]: its address [a] is at [p]. *)
Definition at_ (fs : list (N * N)) (a p : N) : Prop :=
  exists eb f, (eb, f) ∈ fs /\ within eb LARGE a /\ p = (f + (a - eb))%N.
Record good (fs : list (N * N)) : Prop := {
  g_eb : forall eb f, (eb, f) ∈ fs -> (eb mod LARGE = 0)%N;
  g_f : forall eb f, (eb, f) ∈ fs -> (f mod LARGE = 0)%N;
  g_fst : forall eb f g, (eb, f) ∈ fs -> (eb, g) ∈ fs -> f = g;
  g_snd : forall eb eb' f, (eb, f) ∈ fs -> (eb', f) ∈ fs -> eb = eb' }.
Lemma aligned_same x y z : (x mod LARGE = 0 -> y mod LARGE = 0 -> within x LARGE z -> within y LARGE z -> x = y)%N.
Proof. unfold within, LARGE. elia. Qed.
(** What a change of memory does to the program's addresses; nothing else changes. *)
Definition eff (fs : list (N * N)) (m m' : pmem) (u : N -> option N) : Prop :=
  (forall a p, at_ fs a p -> m' p = default (m p) (u a)) /\
  (forall p, (forall a, ~ at_ fs a p) -> m' p = m p).
Lemma eff_refl fs m u : (forall a, u a = None) -> eff fs m m u.
Proof. intros H. split; [|done]. intros a p _. by rewrite H. Qed.
Lemma eff_trans fs m1 m2 m3 u v w : eff fs m1 m2 u -> eff fs m2 m3 v ->
  (forall a, w a = match v a with Some x => Some x | None => u a end) -> eff fs m1 m3 w.
Proof.
  intros [A1 B1] [A2 B2] Hw. split.
  - intros a p H. rewrite (A2 _ _ H), (A1 _ _ H), Hw. by destruct (v a).
  - intros p H. by rewrite (B2 _ H), (B1 _ H).
Qed.
Lemma eff_ext fs m m' u v : eff fs m m' u -> (forall a, u a = v a) -> eff fs m m' v.
Proof. intros [A B] H. split; [|done]. intros a p Ha. rewrite <- H. by apply A. Qed.

Definition chunk (a0 : N) (bs : list N) (a : N) : option N :=
  if (a0 <=? a)%N && (a <? a0 + N.of_nat (length bs))%N then Some (nth (N.to_nat (a - a0)) bs 0%N) else None.
Lemma chunk_nil a0 a : chunk a0 [] a = None.
Proof.
  unfold chunk. cbn [length]. destruct (_ && _) eqn:E; [|done]. apply andb_true_iff in E as [E1 E2].
  apply N.leb_le in E1. apply N.ltb_lt in E2. lia.
Qed.
Lemma poke_eff fs m eb f a0 bs : good fs -> (eb, f) ∈ fs -> (eb <= a0)%N -> (a0 + N.of_nat (length bs) <= eb + LARGE)%N ->
  eff fs m (poke m (f + (a0 - eb)) bs) (chunk a0 bs).
Proof.
  intros G Hin H1 H2. set (L := N.of_nat (length bs)) in *. split.
  - intros a p (eb' & f' & Hin' & [W1 W2] & ->). unfold poke, chunk. fold L.
    pose proof (g_eb _ G _ _ Hin) as E1. pose proof (g_eb _ G _ _ Hin') as E2.
    pose proof (g_f _ G _ _ Hin) as F1. pose proof (g_f _ G _ _ Hin') as F2.
    destruct ((f + (a0 - eb) <=? f' + (a - eb'))%N && (f' + (a - eb') <? f + (a0 - eb) + L)%N) eqn:B1.
    + apply andb_true_iff in B1 as [B1 B2]. apply N.leb_le in B1. apply N.ltb_lt in B2.
      assert (f = f') as <-. { apply (aligned_same f f' (f' + (a - eb'))); [done..| |]; split; lia. }
      assert (eb = eb') as <- by (by eapply (g_snd _ G)).
      assert (((a0 <=? a)%N && (a <? a0 + L)%N) = true) as ->.
      { apply andb_true_iff. split; [apply N.leb_le|apply N.ltb_lt]; lia. }
      cbn [default]. unfold id. f_equal. f_equal. lia.
    + destruct ((a0 <=? a)%N && (a <? a0 + L)%N) eqn:B2; [|done]. exfalso.
      apply andb_true_iff in B2 as [B2 B3]. apply N.leb_le in B2. apply N.ltb_lt in B3.
      assert (eb = eb') as <-. { apply (aligned_same eb eb' a); [done..| |]; split; lia. }
      assert (f = f') as <- by (by eapply (g_fst _ G)).
      apply andb_false_iff in B1 as [B1|B1]; [apply N.leb_gt in B1|apply N.ltb_ge in B1]; lia.
  - intros p H. unfold poke. fold L. destruct ((f + (a0 - eb) <=? p)%N && (p <? f + (a0 - eb) + L)%N) eqn:B; [|done]. exfalso.
    apply andb_true_iff in B as [B1 B2]. apply N.leb_le in B1. apply N.ltb_lt in B2.
    apply (H (eb + (p - f))%N). exists eb, f. split; [done|]. unfold within. lia.
Qed.

(** A loop of such changes. *)
Lemma fold_eff {B} fs (step : pmem -> B -> res pmem) (u : B -> N -> option N) (l : list B) :
  (forall x, x ∈ l -> forall m, exists m', step m x = Ok m' /\ eff fs m m' (u x)) ->
  forall m, exists m', rfold step m l = Ok m' /\
    (forall p, (forall a, ~ at_ fs a p) -> m' p = m p) /\
    (forall a p, at_ fs a p -> (forall x, x ∈ l -> u x a = None) -> m' p = m p) /\
    (forall a p v, at_ fs a p -> (forall y w, y ∈ l -> u y a = Some w -> w = v) ->
       m p = v \/ (exists x, x ∈ l /\ u x a = Some v) -> m' p = v).
Proof.
  induction l as [|x l IH]; intros Hs m; cbn [rfold].
  { exists m. split; [done|]. split; [done|]. split; [done|]. intros a p v _ _ [H|(x & Hx & _)]; [done|]. by apply elem_of_nil in Hx. }
  destruct (Hs x (elem_of_list_here _ _) m) as (m1 & -> & [A1 B1]).
  destruct (IH (fun y Hy => Hs y (elem_of_list_further _ _ _ Hy)) m1) as (m' & E & F1 & F2 & F3).
  exists m'. split; [done|]. split; [|split].
  - intros p H. by rewrite (F1 _ H), (B1 _ H).
  - intros a p H Hn. rewrite (F2 _ _ H); [|intros y Hy; apply Hn; by right]. rewrite (A1 _ _ H), (Hn x); [done|by left].
  - intros a p v H Hag Hor. apply (F3 a p v H); [intros y w Hy; apply Hag; by right|].
    rewrite (A1 _ _ H). destruct (u x a) as [w|] eqn:Ex; cbn [default].
    { left. apply (Hag x); [by left|done]. }
    destruct Hor as [Hm|(y & Hy & Ey)]; [by left|]. apply elem_of_cons in Hy as [-> | Hy]; [congruence|]. right. by exists y.
Qed.

(** ** Pages of a header *)

Lemma pair_pages_in b fs : forall eb f, (eb, f) ∈ pair_pages b fs <-> exists k, fs !! k = Some f /\ eb = (b + N.of_nat k * LARGE)%N.
Proof.
  revert b. induction fs as [|g fs IH]; intros b eb f; cbn [pair_pages].
  { split; [intros H; by apply elem_of_nil in H|]. intros (k & H & _). done. }
  rewrite elem_of_cons, IH. split.
  - intros [[= -> ->]|(k & Hk & ->)]; [exists 0; split; [done|lia]|]. exists (S k). split; [done|]. lia.
  - intros ([|k] & Hk & ->); [left; injection Hk as ->; f_equal; lia|]. right. exists k. split; [done|]. lia.
Qed.
Lemma pair_pages_snd b fs : map snd (pair_pages b fs) = fs.
Proof. revert b. induction fs as [|g fs IH]; intros b; [done|]. cbn [pair_pages map snd]. by rewrite IH. Qed.
Lemma pair_pages_len b fs : length (pair_pages b fs) = length fs.
Proof. by rewrite <- (map_length snd), pair_pages_snd. Qed.

Lemma page_base_eq h : page_base h = (ph_va h / LARGE * LARGE)%N.
Proof. unfold page_base, LARGE. elia. Qed.
Lemma seg_page h a : in_seg h a -> exists k, (k < N.of_nat (n_pages h))%N /\ within (page_base h + k * LARGE) LARGE a.
Proof.
  intros [H1 H2]. exists ((a - page_base h) / LARGE)%N. unfold within, n_pages. rewrite N2Nat.id.
  unfold page_base in *. revert H1 H2. generalize (ph_va h) (ph_memsz h). clear h. intros va ms H1 H2. unfold LARGE. elia.
Qed.
Lemma seg_on_page h a : in_seg h a -> on_page h (a / LARGE).
Proof.
  intros [H1 H2]. unfold on_page, n_pages. rewrite N2Nat.id. revert H1 H2. generalize (ph_va h) (ph_memsz h). clear h. intros va ms H1 H2. unfold LARGE. elia.
Qed.
Lemma page_on_page h k a : (k < N.of_nat (n_pages h))%N -> within (page_base h + k * LARGE) LARGE a -> on_page h (a / LARGE).
Proof.
  rewrite page_base_eq. unfold on_page, within. intros Hk [H1 H2]. 
  assert (a / LARGE = ph_va h / LARGE + k)%N as ->; [|lia]. revert H1 H2. generalize (ph_va h / LARGE)%N. clear. intros q H1 H2. unfold LARGE in *. elia.
Qed.
Lemma pages_end h : (page_base h + N.of_nat (n_pages h) * LARGE <= ph_va h + ph_memsz h + LARGE)%N.
Proof. unfold page_base, n_pages. rewrite N2Nat.id. generalize (ph_va h) (ph_memsz h). clear h. intros va ms. unfold LARGE. elia. Qed.

(** ** Copying data *)

Lemma ds_copy_ok fs frs : good fs -> forall b m dst region,
  (forall e, e ∈ pair_pages b frs -> e ∈ fs) ->
  region = [] \/ (b <= dst /\ dst < b + LARGE /\ dst + N.of_nat (length region) <= b + N.of_nat (length frs) * LARGE)%N ->
  exists m', ds_copy (pair_pages b frs) m dst region = Ok m' /\ eff fs m m' (chunk dst region).
Proof.
  intros G. induction frs as [|f frs IH]; intros b m dst region Hin H; cbn [pair_pages ds_copy].
  { exists m. split; [done|]. apply eff_refl. intros a. unfold chunk. destruct H as [-> | (H1 & H2 & H3)]; cbn [length] in *;
      destruct (_ && _) eqn:E; try done; apply andb_true_iff in E as [E1 E2]; apply N.leb_le in E1; apply N.ltb_lt in E2; lia. }
  assert (Hin' : forall e, e ∈ pair_pages (b + LARGE) frs -> e ∈ fs) by (intros e He; apply Hin; by right).
  pose proof (Hin (b, f) (elem_of_list_here _ _)) as Hf.
  destruct H as [-> | (H1 & H2 & H3)].
  - destruct (_ && _) eqn:E; [|by apply IH; [|left]].
    cbn [length] in E. apply andb_true_iff in E as [E1 E2]. apply N.ltb_lt in E1, E2.
    assert ((dst <? b)%N = false) as -> by (apply N.ltb_ge; lia). rewrite !drop_nil, take_nil.
    match goal with |- context [ds_copy _ ?m1 ?d []] => destruct (IH (b + LARGE)%N m1 d [] Hin' (or_introl eq_refl)) as (m' & Em & He) end.
    exists m'. split; [exact Em|]. eapply eff_trans; [apply (poke_eff fs m b f dst []); [done|done|lia|cbn [length]; lia]|exact He|].
    intros a. by rewrite !chunk_nil.
  - destruct (_ && _) eqn:E.
    2:{ assert (region = []) as ->. { destruct region; [done|]. cbn [length] in *. apply andb_false_iff in E as [E|E]; apply N.ltb_ge in E; lia. }
        apply IH; [done|by left]. }
    assert ((dst <? b)%N = false) as -> by (by apply N.ltb_ge).
    set (L := N.of_nat (length region)) in *. replace (N.max b dst - dst)%N with 0%N by lia. rewrite N.sub_0_r.
    set (c := (N.min (b + LARGE) (dst + L) - dst)%N). cbn [drop N.to_nat].
    assert (N.to_nat c <= length region) as Hc by (subst c L; lia).
    assert (length (take (N.to_nat c) region) = N.to_nat c) as Lt by (by apply take_length_le).
    match goal with |- context [ds_copy _ ?m1 ?d ?r] => destruct (IH (b + LARGE)%N m1 d r Hin') as (m' & Em & He) end.
    { destruct (N.le_gt_cases (dst + L) (b + LARGE)) as [Hle|Hgt].
      - left. apply nil_length_inv. rewrite drop_length. subst c L. lia.
      - right. rewrite drop_length. subst c L. cbn [length] in *. unfold LARGE in *. lia. }
    exists m'. split; [exact Em|]. eapply eff_trans; [apply (poke_eff fs m b f dst (take (N.to_nat c) region)); [done|done|done|rewrite Lt; subst c; lia]|exact He|].
    intros a. unfold chunk. rewrite Lt, drop_length, N2Nat.id. fold L.
    assert (N.of_nat (length region - N.to_nat c) = L - c)%N as -> by (subst L; lia).
    destruct (N.le_gt_cases dst a) as [Ha|Ha].
    2:{ assert ((dst <=? a)%N = false) as -> by (by apply N.leb_gt). assert ((dst + c <=? a)%N = false) as -> by (apply N.leb_gt; lia). done. }
    assert ((dst <=? a)%N = true) as -> by (by apply N.leb_le). cbn [andb].
    destruct (N.lt_ge_cases a (dst + c)) as [Hb|Hb].
    + assert ((dst + c <=? a)%N = false) as -> by (by apply N.leb_gt). cbn [andb].
      assert ((a <? dst + c)%N = true) as -> by (by apply N.ltb_lt).
      assert ((a <? dst + L)%N = true) as -> by (apply N.ltb_lt; subst c; lia).
      f_equal. rewrite <- (take_drop (N.to_nat c) region) at 1. rewrite app_nth1; [done|]. lia.
    + assert ((dst + c <=? a)%N = true) as -> by (by apply N.leb_le). cbn [andb].
      assert ((a <? dst + c)%N = false) as -> by (by apply N.ltb_ge).
      assert (dst + c + (L - c) = dst + L)%N as -> by (subst c L; lia).
      destruct (a <? dst + L)%N eqn:Ea; [|done]. f_equal.
      rewrite <- (take_drop (N.to_nat c) region) at 1. rewrite app_nth2 by lia. rewrite Lt. f_equal. lia.
Qed.

(** ** Relocations *)

Definition word (off : N) (r : rela) (act : bool) (a : N) : option N := if act then chunk (rl_off r) (le8 (off + rl_add r)) a else None.
Lemma le8_len v : length (le8 v) = 8.
Proof. done. Qed.
Lemma rel_word_ok dbg off r : (off + rl_add r < 2 ^ 64)%N -> rel_word dbg off r = Ok (off + rl_add r)%N.
Proof.
  intros H. unfold rel_word. assert ((2 ^ 64 <=? off + rl_add r)%N = false) as -> by (by apply N.leb_gt). cbn [andb]. by rewrite N.mod_small.
Qed.
Lemma word_fits eb x : (eb mod LARGE = 0 -> x mod 8 = 0 -> within eb LARGE x -> x + 8 <= eb + LARGE)%N.
Proof. unfold within, LARGE. elia. Qed.
Definition hits (l : list (N * N)) (x : N) : bool := existsb (fun e => (e.1 <=? x)%N && (x <? e.1 + LARGE)%N) l.
Lemma hits_true l x : hits l x = true <-> exists eb f, (eb, f) ∈ l /\ within eb LARGE x.
Proof.
  unfold hits. rewrite existsb_exists. split.
  - intros ([eb f] & Hin & H). apply elem_of_list_In in Hin. exists eb, f. split; [done|]. cbn [fst] in H.
    apply andb_true_iff in H as [H1 H2]. apply N.leb_le in H1. apply N.ltb_lt in H2. by split.
  - intros (eb & f & Hin & [H1 H2]). exists (eb, f). split; [by apply elem_of_list_In|]. cbn [fst]. apply andb_true_iff. by rewrite N.leb_le, N.ltb_lt.
Qed.

Lemma ds_relocate_ok dbg off fs r l : good fs -> (off mod LARGE = 0)%N -> rl_rel r = true -> (off + rl_add r < 2 ^ 64)%N -> (rl_off r mod 8 = 0)%N ->
  (forall e, e ∈ l -> e ∈ fs) -> (forall eb f, (eb, f) ∈ l -> (rl_off r <> eb + LARGE)%N) ->
  forall m, exists m', ds_relocate dbg off l m r = Ok m' /\ eff fs m m' (word off r (hits l (rl_off r))).
Proof.
  intros G Ho Hr Ha H8. induction l as [|[eb f] l IH]; intros Hin Hne m; cbn [ds_relocate].
  { exists m. split; [done|]. by apply eff_refl. }
  assert (Hin' : forall e, e ∈ l -> e ∈ fs) by (intros e He; apply Hin; by right).
  assert (Hne' : forall eb f, (eb, f) ∈ l -> (rl_off r <> eb + LARGE)%N) by (intros e g He; apply (Hne e g); by right).
  pose proof (Hin _ (elem_of_list_here _ _)) as Hf. pose proof (Hne _ _ (elem_of_list_here _ _)) as Hn.
  pose proof (g_eb _ G _ _ Hf) as He.
  assert ((off + eb) mod LARGE = 0)%N as -> by (clear -Ho He; unfold LARGE in *; elia). rewrite N.sub_0_r.
  assert (hits ((eb, f) :: l) (rl_off r) = ((eb <=? rl_off r)%N && (rl_off r <? eb + LARGE)%N) || hits l (rl_off r)) as -> by done.
  assert (((off + eb <=? off + rl_off r)%N && (off + rl_off r <=? off + eb + LARGE)%N) = ((eb <=? rl_off r)%N && (rl_off r <? eb + LARGE)%N)) as ->.
  { apply eq_true_iff_eq. rewrite !andb_true_iff, !N.leb_le, N.ltb_lt. lia. }
  destruct (_ && _) eqn:E; cbn [orb]; [|by apply IH].
  rewrite Hr, (rel_word_ok _ _ _ Ha). apply andb_true_iff in E as [E1 E2]. apply N.leb_le in E1. apply N.ltb_lt in E2.
  replace (off + rl_off r - (off + eb))%N with (rl_off r - eb)%N by lia.
  match goal with |- context [ds_relocate _ _ _ ?m1 _] => destruct (IH Hin' Hne' m1) as (m' & -> & H') end.
  exists m'. split; [done|]. eapply eff_trans; [apply (poke_eff fs m eb f (rl_off r) (le8 (off + rl_add r))); [done..|]|exact H'|].
  { rewrite le8_len. apply (word_fits eb); [done..|by split]. }
  intros a. unfold word. destruct (hits l (rl_off r)); [|done]. by destruct (chunk _ _ a).
Qed.

(** ** The process *)

Lemma map_pages_ok dbg a frs : forall vs b,
  reach true dbg vs -> Forall (fun f => f mod LARGE = 0)%N frs -> (b mod LARGE = 0)%N ->
  (b + N.of_nat (length frs) * LARGE <= 2 ^ 48)%N ->
  (forall x, within b (N.of_nat (length frs) * LARGE) x -> vs_resolve vs x = Err NotMapped) ->
  exists vs', map_pages true vs b frs a = Ok vs' /\ reach true dbg vs' /\
    (forall eb f x, (eb, f) ∈ pair_pages b frs -> within eb LARGE x -> vs_resolve vs' x = Ok ((f + (x - eb))%N, granted a)) /\
    (forall x, (x < 2 ^ 48)%N -> ~ within b (N.of_nat (length frs) * LARGE) x -> vs_resolve vs' x = vs_resolve vs x).
Proof.
  induction frs as [|f frs IH]; intros vs b R Hf Hb H48 Hun; cbn [map_pages pair_pages].
  { exists vs. split; [done|]. split; [done|]. split; [|done]. intros eb f x H. by apply elem_of_nil in H. }
  inversion_clear Hf as [|q0 l0 F1 F2]. cbn [length] in *.
  assert (page_sized true LARGE) as Hp by (by right).
  destruct (C17_map_unmapped_range true dbg vs b f LARGE a R Hp) as (vs1 & Ev & V1 & V2 & _); [lia|done|done| |].
  { intros y [Y1 Y2]. apply Hun. split; lia. }
  rewrite Ev.
  assert (reach true dbg vs1) as R1.
  { pose proof (reach_map true dbg vs b f LARGE a R Hp ltac:(lia)) as R1. by rewrite Ev in R1. }
  destruct (IH vs1 (b + LARGE)%N R1 F2) as (vs' & Em & R' & W1 & W2).
  - clear -Hb. unfold LARGE in *. elia.
  - lia.
  - intros y [Y1 Y2]. rewrite V2; [|lia|unfold within; lia]. apply Hun. split; lia.
  - exists vs'. split; [exact Em|]. split; [done|]. split.
    + intros eb g x Hin Hx. apply elem_of_cons in Hin as [[= -> ->]|Hin]; [|by eapply W1].
      rewrite W2; [by apply V1|destruct Hx; lia|destruct Hx; unfold within; lia].
    + intros x Hx Hn. rewrite W2, V2; [done|done|unfold within in *; lia|done|unfold within in *; lia].
Qed.

(** The pages of each header, with the frames the process maps for them. *)
Fixpoint pages_of (wfr : list N) (hs : list phdr) (sup : list N) : list (list (N * N)) :=
  match hs with
  | [] => []
  | h :: hs => pair_pages (page_base h) (take (n_pages h) (if ph_w h then wfr else sup)) ::
      pages_of wfr hs (if ph_w h then sup else drop (n_pages h) sup)
  end.
Definition hd_range (off : N) (h : phdr) (x : N) : Prop := within (off + page_base h) (N.of_nat (n_pages h) * LARGE) x.
Lemma ph_action_ok h : ph_r h = true -> exists a, ph_action h = Some a /\ granted a = seg_rights h.
Proof. intros H. unfold ph_action, seg_rights. rewrite H. destruct (ph_x h), (ph_w h); by eexists. Qed.

Lemma range_on_page off h x : (off mod LARGE = 0)%N -> hd_range off h x -> (off <= x)%N /\ on_page h ((x - off) / LARGE).
Proof.
  intros Ho [H1 H2]. split; [lia|]. assert (exists y, x = off + y)%N as [y ->] by (exists (x - off)%N; lia).
  replace (off + y - off)%N with y by lia.
  apply (page_on_page h ((y - page_base h) / LARGE)).
  - clear -H1 H2. generalize dependent (N.of_nat (n_pages h)). generalize dependent (page_base h). intros b H1 n H2. unfold LARGE in *. elia.
  - clear -H1. generalize dependent (page_base h). intros b H1. unfold within, LARGE in *. elia.
Qed.

Lemma p_allocate_ok dbg off wfr hs : (off mod LARGE = 0)%N -> Forall (fun f => f mod LARGE = 0)%N wfr ->
  Forall (fun h => ph_r h = true /\ off + ph_va h + ph_memsz h + LARGE <= 2 ^ 48)%N hs ->
  (forall i j h g k, hs !! i = Some h -> hs !! j = Some g -> on_page h k -> on_page g k -> i = j) ->
  Forall (fun h => ph_w h = true -> n_pages h <= length wfr) hs ->
  forall sup vs, Forall (fun f => f mod LARGE = 0)%N sup -> demand false hs <= length sup -> reach true dbg vs ->
  (forall h x, h ∈ hs -> hd_range off h x -> vs_resolve vs x = Err NotMapped) ->
  exists vs', p_allocate true off wfr hs sup vs = Ok vs' /\ reach true dbg vs' /\
    (forall i h l eb f x, hs !! i = Some h -> pages_of wfr hs sup !! i = Some l -> (eb, f) ∈ l -> within eb LARGE x ->
       vs_resolve vs' (off + x) = Ok ((f + (x - eb))%N, seg_rights h)) /\
    (forall x, (x < 2 ^ 48)%N -> (forall h, h ∈ hs -> ~ hd_range off h x) -> vs_resolve vs' x = vs_resolve vs x).
Proof.
  intros Ho Hw. induction hs as [|h hs IH]; intros Hh Hap Hn sup vs Hs Hd R Hun; cbn [p_allocate pages_of].
  { exists vs. split; [done|]. split; [done|]. split; [|done]. intros i h l eb f x Hi. by rewrite lookup_nil in Hi. }
  inversion_clear Hh as [|q0 l0 [A1 A2] A3]. inversion_clear Hn as [|q1 l1 N1 N2].
  destruct (ph_action_ok h A1) as (a & -> & Ha).
  set (src := if ph_w h then wfr else sup). unfold demand in Hd. cbn [map list_sum fold_right] in Hd.
  assert (n_pages h <= length src) as Hlen.
  { subst src. destruct (ph_w h); [by apply N1|]. cbn [Bool.eqb] in Hd. unfold list_sum in Hd. cbn [fold_right] in Hd. lia. }
  assert ((length src <? n_pages h) = false) as -> by (by apply Nat.ltb_ge).
  assert (length (take (n_pages h) src) = n_pages h) as Lt by (by apply take_length_le).
  assert (Forall (fun f => f mod LARGE = 0)%N src) as Fs by (subst src; by destruct (ph_w h)).
  pose proof (pages_end h) as Hpe.
  destruct (map_pages_ok dbg a (take (n_pages h) src) vs (off + page_base h)%N R) as (vs1 & Em & R1 & M1 & M2).
  { by apply Forall_take. }
  { rewrite page_base_eq, N.mod_add; done. }
  { rewrite Lt. clear -Hpe A2. lia. }
  { rewrite Lt. intros x Hx. apply (Hun h); [by left|done]. }
  rewrite Em. rewrite Lt in M2.
  assert (forall g x, g ∈ hs -> hd_range off g x -> ~ hd_range off h x) as Hdis.
  { intros g x Hg G1 G2. apply elem_of_list_lookup in Hg as [j Hj]. apply (range_on_page _ _ _ Ho) in G1 as [_ G1], G2 as [_ G2].
    pose proof (Hap 0 (S j) h g _ eq_refl Hj G2 G1). done. }
  set (sup' := if ph_w h then sup else drop (n_pages h) sup).
  destruct (IH A3) with (sup := sup') (vs := vs1) as (vs' & Ep & R' & P1 & P2).
  { intros i j g1 g2 k H1 H2 H3 H4. by injection (Hap (S i) (S j) g1 g2 k H1 H2 H3 H4). }
  { done. }
  { subst sup'. destruct (ph_w h); [done|]. by apply Forall_drop. }
  { subst sup'. unfold demand, list_sum in *. cbn [fold_right] in Hd. destruct (ph_w h); cbn [Bool.eqb] in Hd; [done|]. rewrite drop_length. lia. }
  { done. }
  { intros g x Hg Hx. rewrite M2; [apply (Hun g); [by right|done]| |by eapply Hdis].
    pose proof (proj1 (Forall_forall _ _) A3 g Hg) as [_ B]. destruct Hx as [_ Hx]. pose proof (pages_end g). clear -B Hx H. lia. }
  exists vs'. split; [exact Ep|]. split; [done|]. split.
  - intros [|i] g l eb f x Hi Hl Hin Hx; cbn in Hi, Hl; [|by eapply P1].
    injection Hi as <-. injection Hl as <-. fold src in Hin. apply pair_pages_in in Hin as (k & Hk & ->).
    pose proof (lookup_lt_Some _ _ _ Hk) as Hlt. rewrite Lt in Hlt.
    assert (hd_range off h (off + x)) as Hr. { destruct Hx. unfold hd_range, within. clear -H H0 Hlt. unfold LARGE in *. lia. }
    rewrite P2.
    + rewrite (M1 (off + page_base h + N.of_nat k * LARGE)%N f); [rewrite Ha; do 2 f_equal; destruct Hx; lia| |destruct Hx; split; lia].
      apply pair_pages_in. by exists k.
    + destruct Hr as [_ Hr]. clear -Hr Hpe A2. lia.
    + intros g Hg Hg'. by eapply Hdis.
  - intros x Hx Hno. rewrite P2, M2; [done|done| |done|].
    + intros Hr. by apply (Hno h); [left|].
    + intros g Hg. apply Hno. by right.
Qed.

Lemma p_copy_ok vs off fs bs : good fs -> forall dst m,
  (forall a, within dst (N.of_nat (length bs)) a -> exists eb f r, (eb, f) ∈ fs /\ within eb LARGE a /\ vs_resolve vs (off + a) = Ok ((f + (a - eb))%N, r)) ->
  exists m', p_copy vs m (off + dst) bs = Ok m' /\ eff fs m m' (chunk dst bs).
Proof.
  intros G. induction bs as [|v bs IH]; intros dst m H; cbn [p_copy].
  { exists m. split; [done|]. apply eff_refl. intros a. unfold chunk. destruct (_ && _) eqn:E; [|done].
    apply andb_true_iff in E as [E1 E2]. apply N.leb_le in E1. apply N.ltb_lt in E2. cbn [length] in E2. lia. }
  destruct (H dst) as (eb & f & r & Hin & [W1 W2] & ->); [cbn [length]; split; lia|].
  rewrite <- N.add_assoc. destruct (IH (dst + 1)%N (poke m (f + (dst - eb)) [v])) as (m' & Em & He).
  { intros a [A1 A2]. apply H. cbn [length]. split; lia. }
  exists m'. split; [exact Em|]. eapply eff_trans; [apply (poke_eff fs m eb f dst [v]); [done|done|done|cbn [length]; lia]|exact He|].
  intros a. unfold chunk. cbn [length]. 
  destruct (N.lt_trichotomy a dst) as [Ha|[->|Ha]].
  - assert ((dst <=? a)%N = false) as -> by (by apply N.leb_gt). by assert ((dst + 1 <=? a)%N = false) as -> by (apply N.leb_gt; lia).
  - rewrite N.leb_refl, N.sub_diag. assert ((dst + 1 <=? dst)%N = false) as -> by (apply N.leb_gt; lia). cbn [andb N.to_nat nth].
    assert ((dst <? dst + N.of_nat (S (length bs)))%N = true) as -> by (apply N.ltb_lt; lia).
    by assert ((dst <? dst + N.of_nat 1)%N = true) as -> by (apply N.ltb_lt; lia).
  - assert ((dst <=? a)%N = true) as -> by (apply N.leb_le; lia). assert ((dst + 1 <=? a)%N = true) as -> by (apply N.leb_le; lia). cbn [andb].
    assert ((a <? dst + N.of_nat 1)%N = false) as -> by (apply N.ltb_ge; lia).
    replace (dst + 1 + N.of_nat (length bs))%N with (dst + N.of_nat (S (length bs)))%N by lia.
    destruct (_ <? _)%N; [|done]. f_equal. replace (N.to_nat (a - dst)) with (S (N.to_nat (a - (dst + 1)))) by lia. done.
Qed.

(** read_only_offset apart from memory. *)
Definition p_load_mem (vs : vspace) (off : N) (m : pmem) (h : phdr) : res pmem :=
  if ph_w h then Ok m else p_copy vs m (off + ph_va h) (ph_bytes h).
Definition ro_step (off e : N) (h : phdr) : N := if ph_w h then e else (off + ph_va h + N.of_nat (length (ph_bytes h)))%N.
Lemma p_load_split vs off hs : forall ro m m', rfold (p_load_mem vs off) m hs = Ok m' ->
  rfold (p_load vs off) (ro, m) hs = Ok (foldl (ro_step off) ro hs, m').
Proof.
  induction hs as [|h hs IH]; intros ro m m' H; cbn [rfold foldl] in *; [by injection H as ->|].
  unfold p_load_mem in H at 1. unfold p_load at 1, ro_step at 2. cbn [snd].
  destruct (ph_w h); [by apply IH|]. destruct (p_copy _ _ _ _); [|done..]. by apply IH.
Qed.
Lemma ro_end_off off hs h : h ∈ hs -> ph_w h = false -> foldl (ro_step off) 0%N hs = (off + ro_end hs)%N.
Proof.
  assert (forall hs e, foldl (ro_step off) (off + e)%N hs = (off + foldl (fun e h => if ph_w h then e else (ph_va h + N.of_nat (length (ph_bytes h)))%N) e hs)%N) as Hg.
  { clear. induction hs as [|g hs IH]; intros e; cbn [foldl]; [done|]. unfold ro_step at 2. destruct (ph_w g); [apply IH|]. by rewrite <- N.add_assoc, IH. }
  assert (forall e1 e2, h ∈ hs -> ph_w h = false -> foldl (ro_step off) e1 hs = foldl (ro_step off) e2 hs) as Hi.
  { clear. induction hs as [|g hs IH]; intros e1 e2 Hin Hw; [by apply elem_of_nil in Hin|]. cbn [foldl]. unfold ro_step at 2 4.
    apply elem_of_cons in Hin as [-> | Hin]; [by rewrite Hw|]. destruct (ph_w g); by apply IH. }
  intros Hin Hw. rewrite (Hi 0%N (off + 0)%N Hin Hw). by rewrite Hg.
Qed.
