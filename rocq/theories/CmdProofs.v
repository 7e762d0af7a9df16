(** Proofs about the command line (C64). *)
From Verif Require Import Base CmdModel CmdSpec.
Open Scope N_scope.

(** * The lexer *)
Lemma span_app p w r : Forall (fun c => p c = true) w ->
  match r with c :: _ => p c = false | [] => True end -> span p (w ++ r) = length w.
Proof.
  intros Hw Hr. induction Hw as [|c w Hc Hw IH]; cbn [app span length].
  - destruct r as [|c r]; [done|]. cbn [span]. by rewrite Hr.
  - by rewrite Hc, IH.
Qed.
Lemma span_le p s : (span p s <= length s)%nat.
Proof. induction s as [|c s IH]; cbn [span length]; [lia|]. destruct (p c); lia. Qed.
Lemma span_pos p c s : p c = true -> (1 <= span p (c :: s))%nat.
Proof. intros H. cbn [span]. rewrite H. lia. Qed.
Lemma body_bound s n : len_body s = Some n -> (1 <= n <= length s)%nat.
Proof.
  revert n. induction s as [s IH] using (well_founded_induction (Wf_nat.well_founded_ltof _ length)); intros n.
  unfold Wf_nat.ltof in IH. destruct s as [|c s]; cbn [len_body]; [done|].
  destruct (c =? QUOTE). { intros [= <-]. cbn [length]. lia. }
  destruct (c =? BSLASH).
  - destruct s as [|e s]; [done|]. destruct (_ || _ || _ || _); [|done].
    destruct (len_body s) as [m|] eqn:E; cbn [fmap option_fmap option_map]; [|done].
    intros [= <-]. apply IH in E; cbn [length] in *; lia.
  - destruct (len_body s) as [m|] eqn:E; cbn [fmap option_fmap option_map]; [|done].
    intros [= <-]. apply IH in E; cbn [length] in *; lia.
Qed.
Lemma lit_bound s : (len_lit s <= length s)%nat /\ (len_lit s = O \/ (2 <= len_lit s)%nat).
Proof.
  unfold len_lit. destruct s as [|c s]; [cbn [length]; lia|]. destruct (c =? QUOTE); [|cbn [length]; lia].
  destruct (len_body s) eqn:E; [|cbn [length]; lia]. apply body_bound in E. cbn [length]. lia.
Qed.
Lemma kernel_bound s : (len_kernel s <= length s)%nat.
Proof.
  unfold len_kernel. destruct s as [|c [|d s]]; cbn [length]; try lia.
  destruct (_ && _); [|lia]. pose proof (span_le is_letter s). destruct (span is_letter s); lia.
Qed.
Lemma other_bound s t n : s <> [] -> lex_other s = (t, n) -> (1 <= n <= length s)%nat /\ (t = TLit -> (2 <= n)%nat).
Proof.
  intros Hs. unfold lex_other. destruct s as [|c s]; [done|].
  assert (Hkw : forall w, word_tok w <> TLit).
  { intros w. unfold word_tok, keywords, find_kw. repeat (destruct (str_eqb _ _); [done|]). done. }
  destruct (is_word c) eqn:E1.
  { intros Heq. apply pair_equal_spec in Heq as [<- <-]. pose proof (span_le is_word (c :: s)). pose proof (span_pos is_word c s E1).
    split; [lia|]. intros H1. by apply Hkw in H1. }
  destruct (c =? EQUALS). { intros [= <- <-]. cbn [length]. split; [lia|done]. }
  destruct (c =? SPACE) eqn:E2.
  { intros Heq. apply pair_equal_spec in Heq as [<- <-]. pose proof (span_le (N.eqb SPACE) (c :: s)).
    assert (SPACE =? c = true) as E3 by (rewrite N.eqb_sym; done).
    pose proof (span_pos (N.eqb SPACE) c s E3). split; [lia|done]. }
  destruct (len_lit (c :: s)) as [|m] eqn:E.
  - intros [= <- <-]. cbn [length]. split; [lia|done].
  - intros [= <- <-]. pose proof (lit_bound (c :: s)) as Hlb. rewrite E in Hlb. cbn [length] in *. split; [lia|]. intros _. lia.
Qed.
Lemma lex1_bound s t n : s <> [] -> lex1 s = (t, n) -> (1 <= n <= length s)%nat /\ (t = TLit -> (2 <= n)%nat).
Proof.
  intros Hs. unfold lex1. destruct (lex_other s) as [t' n'] eqn:E. apply other_bound in E as [Hb Hl]; [|done].
  destruct (Nat.ltb_spec n' (len_kernel s)).
  - intros [= <- <-]. pose proof (kernel_bound s). split; [lia|done].
  - intros [= <- <-]. done.
Qed.

(** The fuel does not matter once it covers the line. *)
Lemma lex_fuel n m s : (length s <= n)%nat -> (length s <= m)%nat -> lex n s = lex m s.
Proof.
  revert m s. induction n as [|n IH]; intros m s Hn Hm.
  - destruct s; [|cbn [length] in Hn; lia]. destruct m; done.
  - destruct s as [|c s]; [destruct m; done|]. destruct m as [|m]; [cbn [length] in Hm; lia|].
    cbn [lex]. destruct (lex1 (c :: s)) as [t k] eqn:E. apply lex1_bound in E as [Hb _]; [|done].
    assert (lex n (drop k (c :: s)) = lex m (drop k (c :: s))) as ->; [|done].
    apply IH; rewrite drop_length; cbn [length] in *; lia.
Qed.
Definition lexall (s : list N) := lex (length s) s.
Lemma lexall_step s t n : s <> [] -> lex1 s = (t, n) ->
  lexall s = (if bool_decide (t = TSkip) then lexall (drop n s) else (t, take n s) :: lexall (drop n s)).
Proof.
  intros Hs E. destruct (lex1_bound s t n Hs E) as [Hb _]. unfold lexall at 1.
  destruct s as [|c s]; [done|]. cbn [length lex]. rewrite E.
  assert (lex (length s) (drop n (c :: s)) = lexall (drop n (c :: s))) as ->.
  { unfold lexall. apply lex_fuel; [|lia]. rewrite drop_length. cbn [length] in *. lia. }
  by destruct t.
Qed.
Lemma lexall_app t w r : t <> TSkip -> w <> [] -> lex1 (w ++ r) = (t, length w) -> lexall (w ++ r) = (t, w) :: lexall r.
Proof.
  intros Ht Hw E. rewrite (lexall_step _ t (length w)); [|by destruct w|done].
  rewrite bool_decide_false by done. by rewrite take_app, drop_app.
Qed.

(** ** Single tokens *)
Lemma no_kernel c d r : d <> SLASH -> len_kernel (c :: d :: r) = O.
Proof. intros H. unfold len_kernel. apply N.eqb_neq in H. rewrite H. by rewrite andb_false_r. Qed.
Definition stops (r : list N) : Prop := match r with c :: _ => is_word c = false /\ c <> SLASH | [] => True end.
Lemma word_not_slash c : is_word c = true -> c <> SLASH.
Proof. intros H ->. by vm_compute in H. Qed.
Lemma word_no_kernel w r : w <> [] -> Forall (fun c => is_word c = true) w -> stops r -> len_kernel (w ++ r) = O.
Proof.
  intros Hw Hf Hr. destruct w as [|c [|d w]]; [done| |].
  - destruct r as [|d r]; [done|]. apply no_kernel, Hr.
  - apply no_kernel. inversion Hf as [|? ? ? Hf']; subst. inversion Hf'; subst. by apply word_not_slash.
Qed.
Lemma lex1_word w r : w <> [] -> Forall (fun c => is_word c = true) w -> stops r ->
  lex1 (w ++ r) = (word_tok w, length w).
Proof.
  intros Hw Hf Hr. unfold lex1.
  assert (lex_other (w ++ r) = (word_tok w, length w)) as ->.
  { destruct w as [|c w]; [done|]. assert (is_word c = true) as Hc by (by inversion Hf).
    assert (lex_other ((c :: w) ++ r) = (let n := span is_word ((c :: w) ++ r) in (word_tok (take n ((c :: w) ++ r)), n))) as ->.
    { unfold lex_other. cbn [app]. by rewrite Hc. }
    cbv zeta. rewrite span_app; [|done|destruct r; [done|apply Hr]]. by rewrite take_app. }
  rewrite word_no_kernel by done. destruct (length w) eqn:E; [|done]. by destruct w.
Qed.
Lemma lex1_sep c r : c <> SLASH -> lex1 (EQUALS :: c :: r) = (TSep, 1%nat).
Proof. intros H. unfold lex1. rewrite no_kernel by done. done. Qed.
Lemma body_plain w r : Forall (fun c => c <> QUOTE /\ c <> BSLASH) w -> len_body (w ++ QUOTE :: r) = Some (S (length w)).
Proof.
  induction 1 as [|c w [H1 H2] Hw IH]; [done|]. cbn [app len_body length].
  apply N.eqb_neq in H1 as ->. apply N.eqb_neq in H2 as ->. rewrite IH. done.
Qed.
Lemma body_span s n : len_body s = Some n -> (span is_letter s < n)%nat.
Proof.
  revert n. induction s as [|c s IH]; intros n; [done|]. cbn [len_body span].
  destruct (N.eqb_spec c QUOTE) as [->|Hq]. { intros [= <-]. cbn. lia. }
  destruct (N.eqb_spec c BSLASH) as [->|Hb].
  { destruct s as [|e s]; [done|]. destruct (_ || _ || _ || _); [|done].
    destruct (len_body s) as [m|]; cbn [fmap option_fmap option_map]; [|done]. intros [= <-].
    change (is_letter BSLASH) with false. cbn [app]. lia. }
  destruct (len_body s) as [m|]; cbn [fmap option_fmap option_map]; [|done]. intros [= <-].
  specialize (IH m eq_refl). destruct (is_letter c); lia.
Qed.
Lemma lit_not_kernel s n : len_body s = Some n -> (len_kernel (QUOTE :: s) <= S n)%nat.
Proof.
  intros H. destruct s as [|d s]; [done|]. unfold len_kernel.
  destruct (N.eqb_spec d SLASH) as [->|Hd]; [|rewrite andb_false_r; lia].
  change (negb (QUOTE =? NEWLINE) && true) with true. cbn [len_body] in H.
  change (SLASH =? QUOTE) with false in H. change (SLASH =? BSLASH) with false in H. cbn iota in H.
  destruct (len_body s) as [m|] eqn:E; [|done]. cbn in H. injection H as <-. apply body_span in E.
  destruct (span is_letter s); lia.
Qed.
Lemma lex1_lit w r : Forall (fun c => c <> QUOTE /\ c <> BSLASH) w ->
  lex1 (QUOTE :: w ++ QUOTE :: r) = (TLit, S (S (length w))).
Proof.
  intros H. unfold lex1, lex_other, len_lit. change (is_word QUOTE) with false. change (QUOTE =? EQUALS) with false.
  change (QUOTE =? SPACE) with false. change (QUOTE =? QUOTE) with true. cbn iota.
  rewrite body_plain by done. pose proof (lit_not_kernel _ _ (body_plain w r H)) as Hk.
  destruct (Nat.ltb_spec (S (S (length w))) (len_kernel (QUOTE :: w ++ QUOTE :: r))); [lia|done].
Qed.
Lemma lex1_kernel w r : w <> [] -> Forall (fun c => is_letter c = true) w ->
  match r with c :: _ => is_letter c = false | [] => True end ->
  lex1 (46 :: SLASH :: w ++ r) = (TKernel, S (S (length w))).
Proof.
  intros Hw Hf Hr. unfold lex1, lex_other. change (is_word 46) with true. cbn iota.
  assert (len_kernel (46 :: SLASH :: w ++ r) = S (S (length w))) as ->.
  { unfold len_kernel. change (negb (46 =? NEWLINE) && (SLASH =? SLASH)) with true. cbn iota.
    rewrite span_app by done. destruct w; done. }
  change (span is_word (46 :: SLASH :: w ++ r)) with 1%nat. done.
Qed.
Lemma lex1_skip g r : match r with c :: _ => c <> SPACE /\ c <> SLASH | [] => True end ->
  lex1 (replicate (S g) SPACE ++ r) = (TSkip, S g).
Proof.
  intros Hr. unfold lex1, lex_other. cbn [replicate app]. change (is_word SPACE) with false.
  change (SPACE =? EQUALS) with false. change (SPACE =? SPACE) with true. cbn iota.
  change (SPACE :: replicate g SPACE ++ r) with (replicate (S g) SPACE ++ r).
  rewrite span_app.
  - rewrite replicate_length. destruct g as [|g]; cbn [replicate app].
    + destruct r as [|c r]; [done|]. rewrite no_kernel by apply Hr. done.
    + rewrite no_kernel by done. done.
  - apply Forall_replicate. done.
  - destruct r as [|c r]; [done|]. destruct Hr as [Hr _]. apply N.eqb_neq. done.
Qed.
Lemma lexall_skip g r : match r with c :: _ => c <> SPACE /\ c <> SLASH | [] => True end ->
  lexall (spaces g ++ r) = lexall r.
Proof.
  intros Hr. destruct g as [|g]; [done|]. unfold spaces. change 32 with SPACE.
  rewrite (lexall_step _ TSkip (S g)); [|done|by apply lex1_skip]. rewrite bool_decide_true by done.
  f_equal. rewrite drop_app_alt; [done|by rewrite replicate_length].
Qed.

(** * Settings *)
Lemma word_tok_ident w : w ∉ reserved -> word_tok w = TIdent.
Proof.
  intros H. unfold word_tok, keywords, find_kw, str_eqb.
  repeat (rewrite bool_decide_false; [|intros <-; apply H; repeat (first [apply elem_of_list_here|apply elem_of_list_further])]).
  done.
Qed.
Lemma word_is_word w : word w -> Forall (fun c => is_word c = true) w.
Proof.
  intros [_ H]. eapply Forall_impl; [exact H|]. cbn beta. intros c Hc. unfold is_word, is_letter, is_digit, in_range.
  destruct Hc as [Hc|[Hc|[Hc|[Hc|[Hc|Hc]]]]]; subst; try done.
  - destruct (N.leb_spec 97 c), (N.leb_spec c 122); try lia; done.
  - destruct (N.leb_spec 65 c), (N.leb_spec c 90); try lia; by rewrite ?orb_true_r.
  - destruct (N.leb_spec 48 c), (N.leb_spec c 57); try lia; cbn [andb]; by rewrite ?orb_true_r.
Qed.
(** The end of a setting: the end of the line or a space. *)
Definition ends (r : list N) : Prop := match r with c :: _ => c = SPACE | [] => True end.
Lemma ends_stops r : ends r -> stops r.
Proof. destruct r as [|c r]; [done|]. intros ->. done. Qed.

Definition cstep (a : cargs) (k : ctok) (v : list N) (t : ctok) := cmd_step a k t v.
Lemma key_step (kw v r : list N) (k : ctok) a p : kw <> [] -> Forall (fun c => is_word c = true) kw -> word_tok kw = k ->
  is_key k = true -> match v with c :: _ => c <> SLASH | [] => False end ->
  cmd_loop a p (lexall (kw ++ EQUALS :: v ++ r)) = cmd_loop a k (lexall (v ++ r)).
Proof.
  intros Hkw Hf Hk Hkey Hv. destruct v as [|c v]; [done|].
  rewrite (lexall_app k); [| by intros ->|done|rewrite lex1_word; [by rewrite Hk|done|done|by split]].
  cbn [cmd_loop]. assert (cmd_step a p k kw = Ok (a, k)) as -> by (by destruct k).
  change (EQUALS :: (c :: v) ++ r) with ([EQUALS] ++ ((c :: v) ++ r)).
  rewrite (lexall_app TSep); [|done|done|by apply lex1_sep]. cbn [cmd_loop cmd_step]. by rewrite Hkey.
Qed.
Lemma ident_step w r a k a' : w <> [] -> Forall (fun c => is_word c = true) w -> word_tok w = TIdent -> ends r ->
  set_ident a k w = Some a' -> cmd_loop a k (lexall (w ++ r)) = cmd_loop a' TError (lexall r).
Proof.
  intros Hw Hf Ht Hr Hs. rewrite (lexall_app TIdent); [|done|done|rewrite lex1_word; [by rewrite Ht|done|done|by apply ends_stops]].
  cbn [cmd_loop cmd_step]. by rewrite Hs.
Qed.
Lemma lit_step w r a k a' : Forall (fun c => c <> QUOTE /\ c <> BSLASH) w ->
  set_text a k w = Some a' -> cmd_loop a k (lexall (([39] ++ w ++ [39]) ++ r)) = cmd_loop a' TError (lexall r).
Proof.
  intros Hf Hs.
  rewrite (lexall_app TLit); [|done|done|].
  2:{ change (([39] ++ w ++ [39]) ++ r) with (QUOTE :: (w ++ [QUOTE]) ++ r). rewrite <- app_assoc.
      change ([QUOTE] ++ r) with (QUOTE :: r). rewrite lex1_lit by done. f_equal.
      rewrite !app_length. cbn [length]. lia. }
  cbn [cmd_loop cmd_step]. assert (length ([39] ++ w ++ [39]) = S (S (length w))) as Hl.
  { rewrite !app_length. cbn [length]. lia. }
  rewrite Hl. change (S (S (length w)) <? 2)%nat with false. cbn iota.
  replace (S (S (length w)) - 2)%nat with (length w) by lia. change (drop 1 ([39] ++ w ++ [39])) with (w ++ [39]).
  rewrite take_app. by rewrite Hs.
Qed.

(** ** Numbers *)
Lemma decimal_mono ds acc : acc <= foldl (fun a d => 10 * a + d) acc ds.
Proof.
  revert acc. induction ds as [|d ds IH]; intros acc; cbn [foldl]; [lia|]. specialize (IH (10 * acc + d)). lia.
Qed.
Lemma digit_char d : d < 10 -> is_digit (48 + d) = true /\ (48 + d) - 48 = d.
Proof.
  intros H. unfold is_digit, in_range. destruct (N.leb_spec 48 (48 + d)), (N.leb_spec (48 + d) 57); try lia; cbn [andb]; split; try done; lia.
Qed.
Lemma parse_digits_ok max ds acc : Forall (fun d => d < 10) ds -> foldl (fun a d => 10 * a + d) acc ds <= max ->
  parse_digits max acc (digits_text ds) = Some (foldl (fun a d => 10 * a + d) acc ds).
Proof.
  intros Hd. revert acc. induction Hd as [|d ds Hd1 Hd IH]; intros acc Hm; [done|].
  cbn [digits_text map parse_digits foldl] in *. destruct (digit_char d Hd1) as [-> ->].
  pose proof (decimal_mono ds (10 * acc + d)). destruct (N.leb_spec (10 * acc + d) max); [|lia]. by apply IH.
Qed.
Lemma parse_num_ok max ds : num_ok max ds -> parse_num max (digits_text ds) = Some (decimal ds).
Proof.
  intros (Hn & Hd & Hm). unfold parse_num. destruct ds as [|d ds]; [done|]. cbn [digits_text map].
  inversion Hd; subst. destruct (N.eqb_spec (48 + d) 43); [lia|]. by apply (parse_digits_ok max (d :: ds) 0).
Qed.
Lemma digits_word ds : Forall (fun d => d < 10) ds -> Forall (fun c => is_word c = true) (digits_text ds).
Proof.
  induction 1 as [|d ds Hd Hds IH]; cbn [digits_text map]; [done|]. constructor; [|done].
  unfold is_word. destruct (digit_char d Hd) as [-> _]. by rewrite orb_true_r.
Qed.
Lemma digits_plain ds : Forall (fun d => d < 10) ds -> Forall (fun c => c <> QUOTE /\ c <> BSLASH) (digits_text ds).
Proof.
  induction 1 as [|d ds Hd Hds IH]; cbn [digits_text map]; [done|]. constructor; [|done]. unfold QUOTE, BSLASH. lia.
Qed.
Lemma digits_tok ds : ds <> [] -> Forall (fun d => d < 10) ds -> word_tok (digits_text ds) = TIdent.
Proof.
  intros Hn Hd. apply word_tok_ident. destruct ds as [|d ds]; [done|]. inversion Hd; subst. cbn [digits_text map].
  intros Hin. unfold reserved in Hin. apply elem_of_list_fmap in Hin as (s & He & Hin).
  repeat (apply elem_of_cons in Hin as [->|Hin]; [injection He; intros; lia|]). by apply elem_of_nil in Hin.
Qed.

(** What one setting does. *)
Definition apply (a : cargs) (s : csetting) : cargs :=
  match s with
  | SLog v => mkCA (val_text v) (c_init a) (c_initargs a) (c_app a) (c_test a) (c_mode a) (c_trans a) (c_mid a) (c_workers a)
  | SInit v => mkCA (c_log a) (val_text v) (c_initargs a) (c_app a) (c_test a) (c_mode a) (c_trans a) (c_mid a) (c_workers a)
  | SInitArgs v => mkCA (c_log a) (c_init a) (val_text v) (c_app a) (c_test a) (c_mode a) (c_trans a) (c_mid a) (c_workers a)
  | SApp v => mkCA (c_log a) (c_init a) (c_initargs a) (val_text v) (c_test a) (c_mode a) (c_trans a) (c_mid a) (c_workers a)
  | STest v => mkCA (c_log a) (c_init a) (c_initargs a) (c_app a) (Some (val_text v)) (c_mode a) (c_trans a) (c_mid a) (c_workers a)
  | SMode m => mkCA (c_log a) (c_init a) (c_initargs a) (c_app a) (c_test a) m (c_trans a) (c_mid a) (c_workers a)
  | STransport t => mkCA (c_log a) (c_init a) (c_initargs a) (c_app a) (c_test a) (c_mode a) t (c_mid a) (c_workers a)
  | SMid _ ds => mkCA (c_log a) (c_init a) (c_initargs a) (c_app a) (c_test a) (c_mode a) (c_trans a) (decimal ds) (c_workers a)
  | SWorkers _ ds => mkCA (c_log a) (c_init a) (c_initargs a) (c_app a) (c_test a) (c_mode a) (c_trans a) (c_mid a) (decimal ds)
  end.
Lemma val_step v r a k a' : val_ok v -> ends r -> set_ident a k (val_text v) = Some a' ->
  set_text a k (val_text v) = Some a' ->
  cmd_loop a k (lexall (write_val v ++ r)) = cmd_loop a' TError (lexall r).
Proof.
  intros Hv Hr Hi Hs. destruct v as [w|w]; cbn [write_val val_text val_ok] in *.
  - destruct Hv as [Hw Hk]. apply ident_step; [apply Hw|by apply word_is_word|by apply word_tok_ident|done|done].
  - by apply lit_step.
Qed.
Lemma num_step q max ds r a k a' : num_ok max ds -> ends r -> set_ident a k (digits_text ds) = Some a' ->
  set_text a k (digits_text ds) = Some a' ->
  cmd_loop a k (lexall (write_num q ds ++ r)) = cmd_loop a' TError (lexall r).
Proof.
  intros (Hn & Hd & _) Hr Hi Hs. destruct q; cbn [write_num].
  - apply lit_step; [by apply digits_plain|done].
  - apply ident_step; [by destruct ds|by apply digits_word|by apply digits_tok|done|done].
Qed.
Lemma val_head v : val_ok v -> match write_val v with c :: _ => c <> SLASH | [] => False end.
Proof.
  destruct v as [w|w]; cbn [val_ok write_val]; [|by cbn].
  intros [[Hn Hw] _]. destruct w as [|c w]; [done|]. apply word_not_slash.
  assert (word (c :: w)) as H by (by split). apply word_is_word in H. by inversion H.
Qed.
Lemma num_head q max ds : num_ok max ds -> match write_num q ds with c :: _ => c <> SLASH | [] => False end.
Proof.
  intros (Hn & Hd & _). destruct q; cbn [write_num]; [by cbn|]. destruct ds as [|d ds]; [done|].
  apply word_not_slash. apply digits_word in Hd. by inversion Hd.
Qed.
Lemma kw_words k : k ∈ reserved -> Forall (fun c => is_word c = true) k.
Proof.
  intros Hin. unfold reserved in Hin. apply elem_of_list_fmap in Hin as (s & -> & Hin).
  repeat (apply elem_of_cons in Hin as [->|Hin]; [by repeat constructor|]). by apply elem_of_nil in Hin.
Qed.
Lemma names_words w : w ∈ [chars "native"; chars "controller"; chars "client"; chars "shmem"; chars "ethernet"] ->
  Forall (fun c => is_word c = true) w /\ word_tok w = TIdent /\ w <> [].
Proof.
  intros Hin. repeat (apply elem_of_cons in Hin as [->|Hin]; [split; [by repeat constructor|by vm_compute]|]).
  by apply elem_of_nil in Hin.
Qed.
Lemma setting_step s r a p : setting_ok s -> ends r ->
  cmd_loop a p (lexall (write_setting s ++ r)) = cmd_loop (apply a s) TError (lexall r).
Proof.
  intros Hs Hr.
  assert (Hkey : forall kw k v, kw ∈ reserved -> kw <> [] -> word_tok kw = k -> is_key k = true ->
    match v with c :: _ => c <> SLASH | [] => False end ->
    cmd_loop a p (lexall (((kw ++ [EQUALS]) ++ v) ++ r)) = cmd_loop a k (lexall (v ++ r))).
  { intros kw k v Hin Hn Hk Hkey Hv. rewrite <- !app_assoc. change ([EQUALS] ++ (v ++ r)) with (EQUALS :: v ++ r).
    apply key_step; try done. by apply kw_words. }
  assert (Hin : forall n x, reserved !! n = Some x -> x ∈ reserved) by (intros; by eapply elem_of_list_lookup_2).
  destruct s as [v|v|v|v|v|m|t|q ds|q ds]; cbn [write_setting setting_ok apply] in *.
  - change (chars "log=") with (chars "log" ++ [EQUALS]).
    rewrite (Hkey _ TLog) by (first [by apply (Hin 1%nat)|done|by apply val_head]). by apply val_step.
  - change (chars "init=") with (chars "init" ++ [EQUALS]).
    rewrite (Hkey _ TInit) by (first [by apply (Hin 6%nat)|done|by apply val_head]). by apply val_step.
  - change (chars "initargs=") with (chars "initargs" ++ [EQUALS]).
    rewrite (Hkey _ TInitArgs) by (first [by apply (Hin 7%nat)|done|by apply val_head]). by apply val_step.
  - change (chars "appcmd=") with (chars "appcmd" ++ [EQUALS]).
    rewrite (Hkey _ TApp) by (first [by apply (Hin 8%nat)|done|by apply val_head]). by apply val_step.
  - change (chars "test=") with (chars "test" ++ [EQUALS]).
    rewrite (Hkey _ TTest) by (first [by apply (Hin 0%nat)|done|by apply val_head]). by apply val_step.
  - change (chars "mode=") with (chars "mode" ++ [EQUALS]).
    rewrite (Hkey _ TMode) by (first [by apply (Hin 2%nat)|done|by destruct m]).
    assert (mode_name m ∈ [chars "native"; chars "controller"; chars "client"; chars "shmem"; chars "ethernet"]) as Hm.
    { destruct m; cbn [mode_name]; repeat (first [apply elem_of_list_here|apply elem_of_list_further]). }
    apply names_words in Hm as (Hf & Ht & Hn). apply ident_step; [done|done|done|done|].
    cbn [set_ident]. by destruct m.
  - change (chars "transport=") with (chars "transport" ++ [EQUALS]).
    rewrite (Hkey _ TTransport) by (first [by apply (Hin 3%nat)|done|by destruct t]).
    assert (trans_name t ∈ [chars "native"; chars "controller"; chars "client"; chars "shmem"; chars "ethernet"]) as Hm.
    { destruct t; cbn [trans_name]; repeat (first [apply elem_of_list_here|apply elem_of_list_further]). }
    apply names_words in Hm as (Hf & Ht & Hn). apply ident_step; [done|done|done|done|].
    cbn [set_ident]. by destruct t.
  - change (chars "mid=") with (chars "mid" ++ [EQUALS]).
    rewrite (Hkey _ TMid) by (first [by apply (Hin 4%nat)|done|by eapply num_head]).
    eapply num_step; [done|done| |]; cbn [set_ident set_text]; unfold set_mid, USIZE_MAX; by rewrite parse_num_ok.
  - change (chars "workers=") with (chars "workers" ++ [EQUALS]).
    rewrite (Hkey _ TWorkers) by (first [by apply (Hin 5%nat)|done|by eapply num_head]).
    eapply num_step; [done|done| |]; cbn [set_ident set_text]; unfold set_workers, U8_MAX; by rewrite parse_num_ok.
Qed.

(** * Lines *)
Lemma setting_head s : exists c w, write_setting s = c :: w /\ c <> SPACE /\ c <> SLASH.
Proof. destruct s; (eexists _, _; split; [reflexivity|done]). Qed.
Definition write_settings (ss : list (nat * csetting)) : list N := concat (map (fun x => spaces x.1 ++ write_setting x.2) ss).
Lemma settings_ends ss r : Forall (fun x => (1 <= x.1)%nat) ss -> ends r -> ends (write_settings ss ++ r).
Proof.
  intros H Hr. destruct H as [|[g s] ss Hg H]; [done|]. cbn [fst] in Hg. destruct g; [lia|]. done.
Qed.
Lemma settings_loop ss r a p : Forall (fun x => setting_ok x.2) ss -> ends r ->
  match ss with x :: ss => Forall (fun x => (1 <= x.1)%nat) ss | [] => True end ->
  exists p', cmd_loop a p (lexall (write_settings ss ++ r)) = cmd_loop (foldl apply a (map snd ss)) p' (lexall r) /\
             (p = TError -> p' = TError).
Proof.
  intros Hok Hr. revert a p. induction Hok as [|[g s] ss Hs Hok IH]; intros a p Hg.
  - exists p. by split.
  - cbn [snd] in Hs. change (write_settings ((g, s) :: ss)) with ((spaces g ++ write_setting s) ++ write_settings ss).
    destruct (setting_head s) as (c & w & Hw & Hc1 & Hc2). rewrite <- !app_assoc. rewrite lexall_skip by (by rewrite Hw).
    rewrite setting_step; [|done|by apply settings_ends].
    destruct (IH (apply a s) TError) as (p' & Hp & Hp'). { by destruct Hg. }
    exists p'. split; [by rewrite Hp|]. intros _. by apply Hp'.
Qed.
Lemma name_loop name r a p : name_ok name -> (name = None \/ ends r) ->
  cmd_loop a p (lexall (write_name name ++ r)) = cmd_loop a p (lexall r).
Proof.
  intros Hn Hr. destruct name as [w|]; [|done]. destruct Hr as [?|Hr]; [done|]. destruct Hn as [Hn Hf].
  cbn [write_name]. rewrite (lexall_app TKernel); [|done|done|].
  - done.
  - change (([46; 47] ++ w) ++ r) with (46 :: SLASH :: w ++ r). rewrite lex1_kernel; [done|done| |].
    + eapply Forall_impl; [exact Hf|]. cbn beta. intros c Hc. unfold is_letter, in_range.
      destruct Hc as [Hc|Hc].
      * destruct (N.leb_spec 97 c), (N.leb_spec c 122); try lia; done.
      * destruct (N.leb_spec 65 c), (N.leb_spec c 90); try lia; by rewrite ?orb_true_r.
    + destruct r as [|c r]; [done|]. cbn in Hr. by subst.
Qed.
Lemma line_loop name ss r : line_ok name ss -> ends r ->
  cmd_loop ca_default TError (lexall (write_line name ss ++ r)) =
  cmd_loop (foldl apply ca_default (map snd ss)) TError (lexall r).
Proof.
  intros (Hn & Hg & Hok) Hr. unfold write_line. rewrite <- app_assoc. fold (write_settings ss). rewrite name_loop; [|done|].
  - destruct (settings_loop ss r ca_default TError Hok Hr) as (p' & Hp & Hp').
    { destruct ss; [done|]. apply Hg. }
    by rewrite Hp, Hp'.
  - destruct ss as [|x ss]; [by right|]. destruct Hg as [[Hg|Hg] Hgs]; [by left|right].
    apply (settings_ends (x :: ss)); [by constructor|done].
Qed.

Lemma last_of_app {A} (d : A) f ss s : last_of d f (ss ++ [s]) = match f s with Some x => x | None => last_of d f ss end.
Proof.
  unfold last_of. rewrite omap_app. cbn [omap list_omap]. destruct (f s).
  - by rewrite last_snoc.
  - by rewrite app_nil_r.
Qed.
Lemma foldl_meaning ss : foldl apply ca_default ss = meaning ss.
Proof.
  induction ss as [|s ss IH] using rev_ind; [done|]. rewrite foldl_app. cbn [foldl]. rewrite IH.
  unfold meaning. rewrite !last_of_app. destruct s; done.
Qed.
Lemma ends_spaces n : ends (spaces n).
Proof. destruct n; done. Qed.
Lemma lexall_spaces n : lexall (spaces n) = [].
Proof. rewrite <- (app_nil_r (spaces n)). rewrite lexall_skip by done. done. Qed.

Lemma parse_line fs fe name ss n : line_ok name ss ->
  (supported fs fe (meaning (map snd ss)) -> cmd_parse fs fe (write_line name ss ++ spaces n) = Ok (meaning (map snd ss))) /\
  (~ supported fs fe (meaning (map snd ss)) -> cmd_parse fs fe (write_line name ss ++ spaces n) = Err InvalidCmdLineOptions).
Proof.
  intros H. unfold cmd_parse. fold (lexall (write_line name ss ++ spaces n)).
  rewrite line_loop; [|done|apply ends_spaces]. rewrite lexall_spaces. cbn [cmd_loop]. rewrite foldl_meaning.
  set (m := meaning (map snd ss)). unfold supported.
  destruct (c_mode m) eqn:E1, (c_trans m) eqn:E2, fs, fe; cbn [negb andb]; split; intros H1;
    repeat first [rewrite bool_decide_true by done | rewrite bool_decide_false by done]; try done;
    first [exfalso; by destruct H1 | exfalso; apply H1; by (left + right)].
Qed.

(** A word that names no setting where a setting should start. *)
Lemma unknown_word fs fe name ss n w r : line_ok name ss -> word w -> w ∉ reserved ->
  (name = None /\ ss = [] \/ (1 <= n)%nat) ->
  match r with c :: _ => ~ word [c] /\ c <> 47 | [] => True end ->
  cmd_parse fs fe (write_line name ss ++ spaces n ++ w ++ r) = Err InvalidCmdLineOptions.
Proof.
  intros Hl Hw Hres Hn Hr. unfold cmd_parse. fold (lexall (write_line name ss ++ spaces n ++ w ++ r)).
  assert (Hwd := word_is_word w Hw).
  assert (exists c w', w = c :: w' /\ is_word c = true) as (c & w' & He & Hc).
  { destruct w as [|c w']; [by destruct Hw|]. exists c, w'. split; [done|]. by inversion Hwd. }
  assert (cmd_loop ca_default TError (lexall (write_line name ss ++ spaces n ++ w ++ r)) =
          cmd_loop (foldl apply ca_default (map snd ss)) TError (lexall (spaces n ++ w ++ r))) as ->.
  { destruct Hn as [[-> ->]|Hn]; [done|]. apply line_loop; [done|]. destruct n; [lia|done]. }
  rewrite lexall_skip. 2:{ rewrite He. cbn [app]. split; [|by apply word_not_slash]. intros ->. by vm_compute in Hc. }
  rewrite (lexall_app TIdent); [|done|apply Hw|rewrite lex1_word; [by rewrite word_tok_ident|apply Hw|done|]].
  - done.
  - destruct r as [|d r]; [done|]. destruct Hr as [Hr1 Hr2]. split; [|done].
    destruct (is_word d) eqn:E; [|done]. exfalso. apply Hr1. split; [done|]. constructor; [|done].
    unfold is_word, is_letter, is_digit, in_range in E. rewrite !orb_true_iff, !andb_true_iff in E.
    rewrite !N.leb_le, !N.eqb_eq in E. lia.
Qed.

(** * Any line *)
Lemma lex_slices n s t w : (t, w) ∈ lex n s -> part_of w s /\ (t = TLit -> (2 <= length w)%nat).
Proof.
  revert s. induction n as [|n IH]; intros s; cbn [lex]; [intros H; by apply elem_of_nil in H|].
  destruct s as [|c s]; [intros H; by apply elem_of_nil in H|].
  destruct (lex1 (c :: s)) as [t' k] eqn:E. assert (Hb := E). apply lex1_bound in Hb as [Hb Hl]; [|done].
  assert (Hrest : (t, w) ∈ lex n (drop k (c :: s)) -> part_of w (c :: s) /\ (t = TLit -> (2 <= length w)%nat)).
  { intros H. apply IH in H as [(p & q & H) H2]. split; [|done]. exists (take k (c :: s) ++ p), q.
    rewrite <- app_assoc, <- H. by rewrite take_drop. }
  assert (Hhere : (t, w) ∈ (t', take k (c :: s)) :: lex n (drop k (c :: s)) ->
     part_of w (c :: s) /\ (t = TLit -> (2 <= length w)%nat)).
  { intros H. apply elem_of_cons in H as [H|H]; [|by apply Hrest]. injection H as -> ->. split.
    - exists [], (drop k (c :: s)). cbn [app]. by rewrite take_drop.
    - intros Ht. rewrite take_length. specialize (Hl Ht). lia. }
  destruct t'; done.
Qed.
Definition from_line (s : list N) (a : cargs) : Prop :=
  (c_log a = chars "info" \/ part_of (c_log a) s) /\ (c_init a = chars "init" \/ part_of (c_init a) s) /\
  (c_initargs a = [] \/ part_of (c_initargs a) s) /\ (c_app a = [] \/ part_of (c_app a) s) /\
  (c_test a = None \/ exists w, c_test a = Some w /\ part_of w s) /\ c_mid a <= 2 ^ 64 - 1 /\ c_workers a <= 255.
Lemma parse_digits_bound max acc s n : acc <= max -> parse_digits max acc s = Some n -> n <= max.
Proof.
  revert acc. induction s as [|c s IH]; intros acc Ha; cbn [parse_digits]; [by intros [= <-]|].
  destruct (is_digit c); [|done]. destruct (N.leb_spec (10 * acc + (c - 48)) max); [|done]. by apply IH.
Qed.
Lemma parse_num_bound max s n : parse_num max s = Some n -> n <= max.
Proof.
  unfold parse_num. destruct s as [|c s]; [done|]. destruct (c =? 43).
  - destruct s; [done|]. apply parse_digits_bound. lia.
  - apply parse_digits_bound. lia.
Qed.
Lemma set_text_from s a k v a' : from_line s a -> part_of v s -> set_text a k v = Some a' -> from_line s a'.
Proof.
  intros (H1 & H2 & H3 & H4 & H5 & H6 & H7) Hv.
  destruct k; cbn [set_text]; intros [= <-]; unfold set_mid, set_workers, from_line;
    cbn [c_log c_init c_initargs c_app c_test c_mid c_workers]; repeat (split; [by eauto|]); try (by eauto).
  - split; [|done]. destruct (parse_num USIZE_MAX v) eqn:E; cbn [default]; [by apply parse_num_bound in E|done].
  - destruct (parse_num U8_MAX v) eqn:E; cbn [default]; [by apply parse_num_bound in E|done].
Qed.
Lemma set_ident_from s a k v a' : from_line s a -> part_of v s -> set_ident a k v = Some a' -> from_line s a'.
Proof.
  intros Ha Hv. destruct k; cbn [set_ident]; try (by apply set_text_from); by intros [= <-].
Qed.
Lemma part_trans a b c : part_of a b -> part_of b c -> part_of a c.
Proof.
  intros (p & q & ->) (p' & q' & ->). exists (p' ++ p), (q ++ q'). by rewrite <- !app_assoc.
Qed.
Lemma strip_part n (w : list N) : part_of (take n (drop 1 w)) w.
Proof.
  exists (take 1 w), (drop n (drop 1 w)). by rewrite take_drop, take_drop.
Qed.
Lemma loop_any s l a p : (forall t w, (t, w) ∈ l -> part_of w s /\ (t = TLit -> (2 <= length w)%nat)) -> from_line s a ->
  match cmd_loop a p l with Ok a' => from_line s a' | Err _ => True | Panic => False end.
Proof.
  revert a p. induction l as [|[t w] l IH]; intros a p Hl Ha; [done|]. cbn [cmd_loop].
  assert (Hrest : forall t w, (t, w) ∈ l -> part_of w s /\ (t = TLit -> (2 <= length w)%nat)).
  { intros t' w' H. apply Hl. by apply elem_of_list_further. }
  destruct (Hl t w (elem_of_list_here _ _)) as [Hw Hlit].
  assert (match cmd_step a p t w with Ok (a', _) => from_line s a' | Err _ => True | Panic => False end) as Hst.
  { destruct t; cbn [cmd_step]; try done.
    - destruct (set_ident a p w) eqn:E; [|done]. by eapply set_ident_from.
    - by destruct (is_key p).
    - specialize (Hlit eq_refl). destruct (Nat.ltb_spec (length w) 2); [lia|].
      destruct (set_text a p _) eqn:E; [|done]. eapply set_text_from; [done| |done].
      eapply part_trans; [apply strip_part|done]. }
  destruct (cmd_step a p t w) as [[a' p']| |]; [|done|done]. by apply IH.
Qed.
Lemma parse_any fs fe s :
  match cmd_parse fs fe s with Ok a => from_line s a /\ supported fs fe a | Err _ => True | Panic => False end.
Proof.
  unfold cmd_parse. pose proof (loop_any s (lex (length s) s) ca_default TError (lex_slices _ s)) as H.
  assert (from_line s ca_default) as H0.
  { unfold from_line, ca_default. cbn [c_log c_init c_initargs c_app c_test c_mid c_workers].
    repeat (split; [by left|]). done. }
  specialize (H H0). destruct (cmd_loop _ _ _) as [a| |]; [|done|done].
  unfold supported.
  destruct (decide (c_mode a = Native)) as [E1|E1].
  - rewrite (bool_decide_false (c_mode a <> Native)) by (by intros ?). rewrite !andb_false_r. cbn [andb]. eauto.
  - rewrite (bool_decide_true (c_mode a <> Native)) by done.
    destruct (c_trans a) eqn:E2; destruct fs, fe; cbn [negb andb];
      repeat first [rewrite bool_decide_true by done | rewrite bool_decide_false by done]; rewrite ?E2; eauto.
Qed.

(** * The arguments of the application *)
Lemma split_nonempty s : split_sp s <> [].
Proof. destruct s as [|c s]; cbn [split_sp]; [done|]. destruct (c =? SPACE); [done|]. by destruct (split_sp s). Qed.
Lemma split_arg w s : arg_ok w -> split_sp (w ++ s) = match split_sp s with v :: l => (w ++ v) :: l | [] => [] end.
Proof.
  induction 1 as [|c w [Hc _] Hw IH]; cbn [app split_sp].
  - pose proof (split_nonempty s). by destruct (split_sp s).
  - apply N.eqb_neq in Hc. change 32 with SPACE in Hc. rewrite Hc, IH. pose proof (split_nonempty s).
    by destruct (split_sp s).
Qed.
Lemma split_join l : l <> [] -> Forall arg_ok l -> split_sp (join_sp l) = l.
Proof.
  intros Hn Hf. induction Hf as [|w l Hw Hl IH]; [done|]. destruct l as [|v l].
  - cbn [join_sp]. pose proof (split_arg w [] Hw) as H. rewrite !app_nil_r in H. cbn [split_sp] in H.
    by rewrite app_nil_r in H.
  - change (join_sp (w :: v :: l)) with (w ++ SPACE :: join_sp (v :: l)). rewrite split_arg by done.
    cbn [split_sp]. change (SPACE =? SPACE) with true. cbn iota. rewrite IH by done. by rewrite app_nil_r.
Qed.
Lemma argv_join l : l <> [] -> Forall arg_ok l -> crt_argv (join_sp l) = Ok (chars "some.bin" :: reverse l).
Proof.
  intros Hn Hf. unfold crt_argv, rsplit_sp. rewrite split_join by done.
  assert (existsb (existsb (N.eqb 0)) (reverse l) = false) as ->; [|done].
  apply not_true_iff_false. rewrite existsb_exists. intros (w & Hin & Hw). apply existsb_exists in Hw as (c & Hc & H0).
  apply N.eqb_eq in H0 as <-. apply elem_of_list_In in Hin. rewrite elem_of_reverse in Hin.
  rewrite stdpp.list.Forall_forall in Hf. specialize (Hf w Hin). unfold arg_ok in Hf.
  rewrite stdpp.list.Forall_forall in Hf. apply elem_of_list_In in Hc. by apply Hf in Hc as [_ Hc].
Qed.
