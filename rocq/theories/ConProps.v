(** Theorems about printing on the console (C77). *)
From Verif Require Import Base.
From Verif Require Import ConModel ConSpec ConProofs.
Local Open Scope N_scope.

(** Nothing is lost, invented, doubled or put into another order, whatever the other cores and the kernel do: at every moment
    what the programs of a core printed is what is on the line from it, followed by what is still to come; between calls at
    most a buffer full of bytes is still to come. *)
Theorem C77_order client cap n l s :
  all_printable l -> run (init client cap n) l = Some s ->
  forall c, (c < n)%nat -> exists rest, said c l = shown c (s_line s) ++ rest /\
    (returned c s -> N.of_nat (length rest) <= cap).
Proof.
  intros Pr H c Hc. destruct (inv_run _ _ _ _ _ Pr H) as ([Say Len _] & _ & Hcap).
  assert (Hlen : length (s_cores s) = n).
  { clear -H. revert H. enough (G : forall l s0 s1, run s0 l = Some s1 -> length (s_cores s1) = length (s_cores s0)).
    { intros H. rewrite (G _ _ _ H). cbn. apply replicate_length. }
    intros l0. induction l0 as [|e l0 IH]; intros s0 s1 H; [by injection H as <-|]. cbn [run] in H.
    destruct (step s0 e) as [s2|] eqn:St; [|done]. rewrite (IH _ _ H). apply step_kind in St.
    destruct St as [d base text kd -> Hd Hp A ->|d base text -> A ->|d kd -> Hd H'|text Ne HC HLk Hl Hcap Hcl Hr].
    - cbn. apply insert_length.
    - done.
    - destruct (core_step_spec _ _ _ _ Hd H') as (k' & lock & out & HC & _). rewrite HC. apply insert_length.
    - by rewrite HC. }
  destruct (lookup_lt_is_Some_2 (s_cores s) c) as [k Hk]; [lia|]. exists (pend k). split; [by apply Say|].
  intros (k' & Hk' & Hp). rewrite Hk in Hk'. injection Hk' as <-. unfold pend. rewrite Hp. rewrite <-Hcap. by eapply Len.
Qed.
Print Assumptions C77_order.

(** When a call with a newline returns, everything up to its first newline is on the line; what follows it is all on the line
    or all in the buffer. *)
Theorem C77_shown_partial client cap n l1 c base a b l2 s :
  all_printable (l1 ++ EPrint c base (a ++ NL :: b) :: l2) -> NL ∉ a -> (forall base' text, EPrint c base' text ∉ l2) ->
  run (init client cap n) (l1 ++ EPrint c base (a ++ NL :: b) :: l2) = Some s -> returned c s ->
  exists r, (r = b \/ r = []) /\ said c l1 ++ a ++ NL :: b = shown c (s_line s) ++ r.
Proof.
  intros Pr Na Np H R. destruct (shown_after _ _ _ _ _ _ _ _ _ _ Pr Na Np H R) as (r & Hr & E). exists r. split; [done|].
  rewrite <-E, said_app. cbn [said]. rewrite Nat.eqb_refl.
  assert (Z : forall l, (forall base' text, EPrint c base' text ∉ l) -> said c l = []).
  { intros l. induction l as [|e l IH]; intros Hn; [done|]. destruct e as [d x t|d|t|]; cbn [said].
    - destruct (Nat.eqb_spec d c) as [-> |].
      + exfalso. apply (Hn x t). apply elem_of_cons. by left.
      + cbn. apply IH. intros y t' Hin. apply (Hn y t'). apply elem_of_cons. by right.
    - apply IH. intros y t' Hin. apply (Hn y t'). apply elem_of_cons. by right.
    - apply IH. intros y t' Hin. apply (Hn y t'). apply elem_of_cons. by right.
    - apply IH. intros y t' Hin. apply (Hn y t'). apply elem_of_cons. by right. }
  rewrite (Z _ Np), app_nil_r. done.
Qed.
Print Assumptions C77_shown_partial.

(** Lines of different cores are not mixed: the core prints at most one newline with each call and its lines fit into the
    buffer; nothing is asked of the other cores.  (The kernel's own output can come in between.) *)
Theorem C77_lines_partial client cap n c l s :
  all_printable l -> texts_ok one_nl c l -> lines_upto cap (said c l) ->
  run (init client cap n) l = Some s -> unmixed c (users (s_line s)).
Proof. apply unmixed_run. Qed.
Print Assumptions C77_lines_partial.

(** On a client of a rack the controller gets what was written on the line of the client, when what follows the first newline
    of a call fits into the buffer. *)
Theorem C77_controller_partial cap n c l s :
  texts_ok (tail_fits cap) c l -> run (init true cap n) l = Some s -> returned c s ->
  copied c (s_remote s) = shown c (s_line s).
Proof. apply copied_run. Qed.
Print Assumptions C77_controller_partial.

(** Every call returns: while a call is open some core can go on, and the kernel takes no more than a fixed number of steps
    before all calls that were begun are over. *)
Theorem C77_returns client cap n l s :
  all_printable l -> run (init client cap n) l = Some s -> s_off s = false ->
  (forall c, (exists k, s_cores s !! c = Some k) -> ~ returned c s -> exists d s', step s (EStep d) = Some s') /\
  (exists m, forall l' s', (forall e, e ∈ l' -> exists c, e = EStep c) -> run s l' = Some s' -> (length l' <= m)%nat).
Proof.
  intros Pr H Off. destruct (inv_run _ _ _ _ _ Pr H) as (HI & _ & _). split.
  - intros c (k & Hk) Nr. eapply some_step; [done|done|done|]. intros Hp. apply Nr. by exists k.
  - exists (works (s_cores s)). intros l' s' A R'. pose proof (steps_bound _ _ _ A R'). lia.
Qed.
Print Assumptions C77_returns.

(** ** What is false *)
Definition steps (c m : nat) : list ev := replicate m (EStep c).

(** A complete line stays in the buffer when another newline comes before it in the same text: "a\nb\n". *)
Theorem C77_shown_refuted :
  ~ (forall client cap n l c s, all_printable l -> run (init client cap n) l = Some s -> returned c s ->
     forall x, said c l = x ++ [NL] -> shown c (s_line s) = said c l).
Proof.
  intros H.
  assert (P : all_printable [EPrint 0 4096 [97; NL; 98; NL]; EStep 0; EStep 0; EStep 0; EStep 0]).
  { intros c base text. rewrite !elem_of_cons, elem_of_nil. intros [[= -> -> ->]|Hin]; [|by destruct Hin as [|[|[|[|]]]]].
    split; [reflexivity|]. split; [reflexivity|]. split; [lia|reflexivity]. }
  destruct (run (init false 128 1) [EPrint 0 4096 [97; NL; 98; NL]; EStep 0; EStep 0; EStep 0; EStep 0]) as [s|] eqn:R; [|done].
  specialize (H _ _ _ _ 0%nat _ P R).
  assert (Rt : returned 0 s). { vm_compute in R. injection R as <-. eexists. split; reflexivity. }
  specialize (H Rt [97; NL; 98] eq_refl). vm_compute in R. injection R as <-. discriminate H.
Qed.
Print Assumptions C77_shown_refuted.

(** What is printed before the program ends is lost if no newline follows. *)
Theorem C77_exit_refuted :
  ~ (forall client cap n l c s, all_printable l -> run (init client cap n) (l ++ [EExit]) = Some s ->
     (forall c, (c < n)%nat -> returned c s) -> said c l = shown c (s_line s)).
Proof.
  intros H.
  assert (P : all_printable [EPrint 0 4096 [104; 105]]).
  { intros c base text. rewrite !elem_of_cons, elem_of_nil. intros [[= -> -> ->]|[]].
    split; [reflexivity|]. split; [reflexivity|]. split; [lia|reflexivity]. }
  destruct (run (init false 128 1) ([EPrint 0 4096 [104; 105]] ++ [EExit])) as [s|] eqn:R; [|done].
  specialize (H _ _ _ _ 0%nat _ P R). vm_compute in R. injection R as <-. discriminate H.
  intros c Hc. assert (c = 0%nat) as -> by lia. eexists. split; reflexivity.
Qed.
Print Assumptions C77_exit_refuted.

(** Lines of two cores are mixed although every line fits, when one text has two newlines: core 0 prints "\n" followed by 126
    bytes of which the last but one is a newline, and then two bytes and a newline; core 1 prints a line in between. *)
Definition w_fill : list N := NL :: replicate 125 97 ++ [NL; 98].
Definition w_mix : list ev :=
  [EPrint 0 4096 w_fill] ++ steps 0 3 ++ [EPrint 0 4096 [99; 100]] ++ steps 0 131 ++
  [EPrint 1 4096 [120; NL]] ++ steps 1 4 ++ [EPrint 0 4096 [101; NL]] ++ steps 0 4.
Theorem C77_lines_refuted :
  ~ (forall client cap n c l s, all_printable l -> lines_upto cap (said c l) ->
     run (init client cap n) l = Some s -> unmixed c (users (s_line s))).
Proof.
  intros H.
  assert (C : match run (init false 128 2) w_mix with Some s => users (s_line s) = (map (pair 0%nat) (NL :: replicate 125 97 ++ [NL; 98; 99])) ++ (0%nat, 100) :: [(1%nat, 120); (1%nat, NL)] ++ (0%nat, 101) :: [(0%nat, NL)] | None => False end)
    by (vm_compute; reflexivity).
  destruct (run (init false 128 2) w_mix) as [s|] eqn:R; [rename C into U|destruct C].
  assert (P : all_printable w_mix).
  { intros c base text Hin. unfold w_mix, steps in Hin. rewrite !elem_of_app, !elem_of_list_singleton in Hin.
    assert (St : forall d m, EPrint c base text ∉ replicate m (EStep d)).
    { intros d m Hr. apply elem_of_replicate in Hr as [Hr _]. discriminate. }
    destruct Hin as [[= -> -> ->]|[Hin|[[= -> -> ->]|[Hin|[[= -> -> ->]|[Hin|[[= -> -> ->]|Hin]]]]]]]; try (by destruct (St _ _ Hin));
      (split; [vm_compute; reflexivity|]; split; [vm_compute; reflexivity|]; split; [lia|vm_compute; reflexivity]). }
  assert (T : lines_upto 128 (said 0 w_mix)).
  { assert (S : said 0 w_mix = [] ++ NL :: (replicate 125 97 ++ NL :: ([98; 99; 100; 101] ++ NL :: []))) by (vm_compute; reflexivity).
    rewrite S. apply lines_cut; [apply not_elem_of_nil|cbn; lia|]. apply lines_cut.
    { intros Hin. apply elem_of_replicate in Hin as [Hin _]. discriminate. }
    { rewrite replicate_length. cbn. lia. }
    apply lines_cut; [|cbn; lia|apply lines_nil]. apply (bool_decide_unpack _); vm_compute; exact Logic.I. }
  specialize (H _ _ _ 0%nat _ _ P T R).
  assert (X : (1%nat, 120).1 = 0%nat); [|discriminate X].
  eapply (H _ _ _ _ _ U); [|apply elem_of_cons; by left].
  apply (bool_decide_unpack _); vm_compute; exact Logic.I.
Qed.
Print Assumptions C77_lines_refuted.

(** A line that is longer than the buffer can be cut by a line of another core, even if every call prints at most one newline. *)
Definition w_long : list ev :=
  [EPrint 0 4096 (replicate 129 97)] ++ steps 0 131 ++ [EPrint 1 4096 [120; NL]] ++ steps 1 4 ++
  [EPrint 0 4096 [101; NL]] ++ steps 0 4.
Theorem C77_long_line_refuted :
  ~ (forall client cap n c l s, all_printable l -> texts_ok one_nl c l ->
     run (init client cap n) l = Some s -> unmixed c (users (s_line s))).
Proof.
  intros H.
  assert (C : match run (init false 128 2) w_long with Some s => users (s_line s) = (map (pair 0%nat) (replicate 128 97)) ++ (0%nat, 97) :: [(1%nat, 120); (1%nat, NL)] ++ (0%nat, 101) :: [(0%nat, NL)] | None => False end)
    by (vm_compute; reflexivity).
  destruct (run (init false 128 2) w_long) as [s|] eqn:R; [rename C into U|destruct C].
  assert (St : forall c base text d m, EPrint c base text ∉ replicate m (EStep d)).
  { intros c base text d m Hr. apply elem_of_replicate in Hr as [Hr _]. discriminate. }
  assert (P : all_printable w_long).
  { intros c base text Hin. unfold w_long, steps in Hin. rewrite !elem_of_app, !elem_of_list_singleton in Hin.
    destruct Hin as [[= -> -> ->]|[Hin|[[= -> -> ->]|[Hin|[[= -> -> ->]|Hin]]]]]; try (by destruct (St _ _ _ _ _ Hin));
      (split; [vm_compute; reflexivity|]; split; [vm_compute; reflexivity|]; split; [lia|vm_compute; reflexivity]). }
  assert (T : texts_ok one_nl 0 w_long).
  { intros base text Hin. unfold w_long, steps in Hin. rewrite !elem_of_app, !elem_of_list_singleton in Hin.
    destruct Hin as [E0|[Hin|[[=]|[Hin|[[= -> ->]|Hin]]]]]; try (by destruct (St _ _ _ _ _ Hin)).
    - apply (f_equal (fun e => match e with EPrint _ _ t => t | _ => [] end)) in E0. cbv beta iota in E0. subst text.
      intros a b E. exfalso. assert (NL ∈ replicate 129 97) as Hr. { rewrite E. apply elem_of_app. right. apply elem_of_cons. by left. }
      apply elem_of_replicate in Hr as [Hr _]. discriminate.
    - intros a b E. destruct a as [|x [|y a]]; [discriminate| |destruct a; discriminate]. injection E as _ <-. apply not_elem_of_nil. }
  specialize (H _ _ _ 0%nat _ _ P T R).
  assert (X : (1%nat, 120).1 = 0%nat); [|discriminate X].
  eapply (H _ _ _ _ _ U); [|apply elem_of_cons; by left].
  apply (bool_decide_unpack _); vm_compute; exact Logic.I.
Qed.
Print Assumptions C77_long_line_refuted.

(** The controller misses the first part of a text when what follows its newline is longer than the buffer. *)
Theorem C77_controller_refuted :
  ~ (forall cap n c l s, all_printable l -> run (init true cap n) l = Some s -> returned c s ->
     copied c (s_remote s) = shown c (s_line s)).
Proof.
  intros H. set (l := [EPrint 0 4096 ([97; NL] ++ replicate 129 98)] ++ steps 0 135).
  assert (C : match run (init true 128 1) l with
              | Some s => bool_decide (copied 0 (s_remote s) = shown 0 (s_line s)) = false /\ option_map k_ph (s_cores s !! 0%nat) = Some PIdle
              | None => False end) by (vm_compute; split; reflexivity).
  destruct (run (init true 128 1) l) as [s|] eqn:R; [destruct C as [C1 C2]|destruct C].
  assert (P : all_printable l).
  { intros c base text Hin. unfold l, steps in Hin. rewrite elem_of_app, elem_of_list_singleton in Hin.
    destruct Hin as [[= -> -> ->]|Hin].
    - split; [vm_compute; reflexivity|]. split; [vm_compute; reflexivity|]. split; [lia|vm_compute; reflexivity].
    - apply elem_of_replicate in Hin as [Hin _]. discriminate. }
  assert (Rt : returned 0 s) by (destruct (s_cores s !! 0%nat) as [k|] eqn:K; [exists k; split; [done|by injection C2]|discriminate C2]).
  specialize (H _ _ _ _ _ P R Rt). apply bool_decide_eq_false in C1. by apply C1.
Qed.
Print Assumptions C77_controller_refuted.

(** Printing an empty string that has no memory of its own (its address is 1) stops the program; all other strings work. *)
Theorem C77_empty_refuted client : write_str client 1 [] = Panic.
Proof. destruct client; vm_compute; reflexivity. Qed.
Print Assumptions C77_empty_refuted.
Theorem C77_strings_work client base text : printable base text -> write_str client base text = Ok tt.
Proof. intros H. unfold write_str. by rewrite accept_ok. Qed.
Print Assumptions C77_strings_work.

(** rumpuser_putchar prints ASCII characters as they are and a newline as carriage return and newline; every other byte comes
    out as two bytes, so text in UTF-8 is garbled. *)
Theorem C77_putchar_partial ch : (0 <= ch < 128)%Z ->
  concat (putchar ch) = if (ch =? 10)%Z then [CR; NL] else [Z.to_N ch].
Proof.
  intros H. unfold putchar. rewrite Z.mod_small by lia. unfold encode_utf8.
  destruct (N.ltb_spec (Z.to_N ch) 128); [|lia]. destruct (Z.eqb_spec ch 10) as [-> |]; done.
Qed.
Print Assumptions C77_putchar_partial.
Theorem C77_putchar_refuted ch : (128 <= ch < 256)%Z -> concat (putchar ch) <> [Z.to_N ch].
Proof.
  intros H. unfold putchar. rewrite Z.mod_small by lia. unfold encode_utf8.
  destruct (N.ltb_spec (Z.to_N ch) 128); [lia|]. destruct (Z.eqb_spec ch 10) as [-> |]; [lia|]. done.
Qed.
Print Assumptions C77_putchar_refuted.

(** ** The hypotheses are met *)
(** Two cores print lines at the same time; core 1 waits for core 0, the kernel writes in between. *)
Definition w_two : list ev :=
  [EPrint 0 4096 [97]; EPrint 0 8192 [98; NL; 99]; EPrint 1 4096 [120; 121; NL]; EStep 0; EStep 0; EKern [75]; EStep 0; EStep 0; EStep 0;
   EStep 1; EStep 1; EStep 1; EStep 1; EStep 1].
Example C77_hyps_met :
  all_printable w_two /\ texts_ok one_nl 0 w_two /\ texts_ok (tail_fits 128) 0 w_two /\ lines_upto 128 (said 0 w_two) /\
  (exists s, run (init false 128 2) w_two = Some s /\ s_off s = false /\ returned 0 s /\
     s_line s = [(Some 0%nat, 97); (None, 75); (Some 0%nat, 98); (Some 0%nat, NL); (Some 1%nat, 120); (Some 1%nat, 121); (Some 1%nat, NL)]) /\
  (exists s, run (init true 128 2) (w_two ++ [EStep 0; EStep 1]) = Some s /\ returned 0 s /\ copied 0 (s_remote s) = [97; 98; NL]).
Proof.
  split; [|split; [|split; [|split; [|split]]]].
  - intros c base text. unfold w_two. rewrite !elem_of_cons, elem_of_nil.
    intros [[= -> -> ->]|[[= -> -> ->]|[[= -> -> ->]|Hin]]]; [| | |exfalso; intuition discriminate];
      (split; [vm_compute; reflexivity|]; split; [vm_compute; reflexivity|]; split; [lia|vm_compute; reflexivity]).
  - intros base text. unfold w_two. rewrite !elem_of_cons, elem_of_nil.
    intros [[= -> ->]|[[= -> ->]|[[=]|Hin]]]; [| |exfalso; intuition discriminate].
    + intros a b E. destruct a as [|x a]; [discriminate|destruct a; discriminate].
    + intros a b E. destruct a as [|x [|y a]]; [discriminate| |].
      * injection E as _ <-. rewrite not_elem_of_cons. split; [discriminate|apply not_elem_of_nil].
      * injection E as _ _ E. destruct a as [|z a]; [discriminate|destruct a; discriminate].
  - intros base text. unfold w_two. rewrite !elem_of_cons, elem_of_nil.
    intros [[= -> ->]|[[= -> ->]|[[=]|Hin]]]; [| |exfalso; intuition discriminate];
      intros a b E _; assert (Hl := f_equal length E); rewrite app_length in Hl; cbn in Hl; lia.
  - apply (lines_cut 128 [97; 98] [99]); [apply (bool_decide_unpack _); vm_compute; exact Logic.I|cbn; lia|].
    intros a l b E _. assert (Hl := f_equal length E). rewrite !app_length in Hl. cbn in Hl. lia.
  - eexists. split; [vm_compute; reflexivity|]. split; [reflexivity|]. split; [eexists; split; reflexivity|reflexivity].
  - eexists. split; [vm_compute; reflexivity|]. split; [eexists; split; reflexivity|reflexivity].
Qed.
Example C77_shown_hyps_met :
  exists s, run (init false 128 2) ([EPrint 0 4096 [97]] ++ EPrint 0 8192 ([98] ++ NL :: [99]) :: [EStep 0; EStep 0; EStep 0; EStep 0; EStep 0]) = Some s /\
    returned 0 s /\ shown 0 (s_line s) = [97; 98; NL].
Proof. eexists. split; [vm_compute; reflexivity|]. split; [eexists; split; reflexivity|reflexivity]. Qed.
