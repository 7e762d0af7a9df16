(** The kernel command line and the arguments of the application (C64). *)
From Verif Require Import Base CmdModel CmdSpec CmdProofs.
Open Scope N_scope.

(** For every line made of settings, in any order, any number of times and with any spacing: each field has the last
    value given to it, or its default; a mode that needs a transport the kernel was built without is refused.
    Missing: values that are reserved words, quoted modes and transports, quotes and escapes inside quotes, paths. *)
Theorem C64_settings_partial : forall f_shmem f_eth name ss n, line_ok name ss ->
  (supported f_shmem f_eth (meaning (map snd ss)) ->
   cmd_parse f_shmem f_eth (write_line name ss ++ spaces n) = Ok (meaning (map snd ss))) /\
  (~ supported f_shmem f_eth (meaning (map snd ss)) ->
   cmd_parse f_shmem f_eth (write_line name ss ++ spaces n) = Err InvalidCmdLineOptions).
Proof. exact parse_line. Qed.
Print Assumptions C64_settings_partial.

(** A name that is no setting is refused, wherever it stands. *)
Theorem C64_unknown_refused_partial : forall f_shmem f_eth name ss n w r, line_ok name ss -> word w -> w ∉ reserved ->
  (name = None /\ ss = [] \/ (1 <= n)%nat) ->
  match r with c :: _ => ~ word [c] /\ c <> 47 | [] => True end ->
  cmd_parse f_shmem f_eth (write_line name ss ++ spaces n ++ w ++ r) = Err InvalidCmdLineOptions.
Proof. exact unknown_word. Qed.
Print Assumptions C64_unknown_refused_partial.

(** For every line at all: parsing ends without a panic, and what it accepts holds only text that stands in the line
    or the defaults, numbers in their range, and a transport the kernel supports. *)
Theorem C64_any_line : forall f_shmem f_eth s,
  cmd_parse f_shmem f_eth s <> Panic /\
  forall a, cmd_parse f_shmem f_eth s = Ok a ->
    (c_log a = chars "info" \/ part_of (c_log a) s) /\ (c_init a = chars "init" \/ part_of (c_init a) s) /\
    (c_initargs a = [] \/ part_of (c_initargs a) s) /\ (c_app a = [] \/ part_of (c_app a) s) /\
    (c_test a = None \/ exists w, c_test a = Some w /\ part_of w s) /\
    c_mid a <= 2 ^ 64 - 1 /\ c_workers a <= 255 /\ supported f_shmem f_eth a.
Proof.
  intros fs fe s. pose proof (parse_any fs fe s) as H. destruct (cmd_parse fs fe s) as [a|e|]; [| |done].
  - split; [done|]. intros a' [= <-]. destruct H as [(H1 & H2 & H3 & H4 & H5 & H6 & H7) H8]. done.
  - split; done.
Qed.
Print Assumptions C64_any_line.

(** A C program whose command line is one argument gets it. *)
Theorem C64_one_argument_partial : forall w, arg_ok w -> crt_argv (join_sp [w]) = Ok [chars "some.bin"; w].
Proof. intros w Hw. rewrite argv_join; [done|done|by repeat constructor]. Qed.
Print Assumptions C64_one_argument_partial.
(** All arguments arrive, the last one first. *)
Theorem C64_arguments_reversed_partial : forall l, l <> [] -> Forall arg_ok l ->
  crt_argv (join_sp l) = Ok (chars "some.bin" :: reverse l).
Proof. exact argv_join. Qed.
Print Assumptions C64_arguments_reversed_partial.

(** ** Where it fails *)
(** The program does not get its arguments in the order they were given in, and with none it gets an empty one. *)
Theorem C64_argv_refuted :
  (exists l, l <> [] /\ Forall arg_ok l /\ crt_argv (join_sp l) <> Ok (chars "some.bin" :: l)) /\
  crt_argv (join_sp []) = Ok [chars "some.bin"; []].
Proof.
  split; [|by vm_compute]. exists [chars "--in"; chars "file"]. split; [done|]. split.
  - repeat constructor; done.
  - intros H. vm_compute in H. discriminate.
Qed.
Print Assumptions C64_argv_refuted.
(** A bare value that is a reserved word is not a value: "initargs=test" leaves the argument empty, and the word
    after it becomes the value of the setting it names. *)
Theorem C64_reserved_value_refuted :
  cmd_parse true true (write_line None [(0%nat, SInitArgs (Bare (chars "log")))]) = Ok ca_default /\
  cmd_parse true true (chars "./kernel initargs=log mid") = Ok ca_default /\
  (exists a, cmd_parse true true (chars "./kernel initargs=log trace") = Ok a /\ c_initargs a = [] /\ c_log a = chars "trace").
Proof. split; [by vm_compute|]. split; [by vm_compute|]. eexists. split; [by vm_compute|done]. Qed.
Print Assumptions C64_reserved_value_refuted.
(** A mode or transport in quotes is dropped without an error, and the next bare word is taken for it. *)
Theorem C64_quoted_mode_refuted :
  cmd_parse true true (chars "./kernel mode='client'") = Ok ca_default /\
  cmd_parse true true (chars "./kernel transport='ethernet' mode='controller'") = Ok ca_default /\
  (exists a, cmd_parse true true (chars "./kernel mode='controller' client") = Ok a /\ c_mode a = Client).
Proof. split; [by vm_compute|]. split; [by vm_compute|]. eexists. split; [by vm_compute|done]. Qed.
Print Assumptions C64_quoted_mode_refuted.
(** A misspelt mode or transport, or a number out of range, falls back to a default without an error. *)
Theorem C64_bad_value_refuted :
  cmd_parse true true (chars "./kernel mode=kontroller") = Ok ca_default /\
  cmd_parse true true (chars "./kernel transport=tcp") = Ok ca_default /\
  cmd_parse true true (chars "./kernel workers=300") = Ok ca_default /\
  cmd_parse true true (chars "./kernel mid=0x2") = Ok ca_default.
Proof. repeat (split; [by vm_compute|]). by vm_compute. Qed.
Print Assumptions C64_bad_value_refuted.
(** A path as a value is taken for the name of the kernel and dropped, and the next word becomes the value. *)
Theorem C64_path_value_refuted :
  cmd_parse true true (chars "./kernel init=/bin") = Ok ca_default /\
  (exists a, cmd_parse true true (chars "./kernel init=/bin extra") = Ok a /\ c_init a = chars "extra") /\
  (exists a, cmd_parse true true (chars "./kernel appcmd=a/b") = Ok a /\ c_app a = []).
Proof.
  split; [by vm_compute|]. split; (eexists; split; [by vm_compute|done]).
Qed.
Print Assumptions C64_path_value_refuted.
(** Escapes stay as they were written: a quote inside quotes arrives with its backslash. *)
Theorem C64_escape_refuted :
  exists a, cmd_parse true true (chars "initargs='" ++ [65; 92; 39; 66] ++ [39]) = Ok a /\ c_initargs a = [65; 92; 39; 66].
Proof. eexists. split; [by vm_compute|done]. Qed.
Print Assumptions C64_escape_refuted.

(** ** The hypotheses are met *)
Definition ex_line : list (nat * csetting) :=
  [(1%nat, SLog (Bare (chars "warn"))); (1%nat, SInit (Bare (chars "dbbench.bin"))); (3%nat, SLog (Bare (chars "trace")));
   (1%nat, SApp (Quoted (chars "--threads=1 --path=/tmp/db"))); (1%nat, SMode Client); (1%nat, STransport Ethernet);
   (2%nat, SMid false [1; 2]); (1%nat, SWorkers true [0; 4])].
Lemma word_chars w : w <> [] -> forallb is_word w = true -> word w.
Proof.
  intros Hn H. split; [done|]. apply stdpp.list.Forall_forall. intros c Hc. rewrite forallb_forall in H.
  apply elem_of_list_In, H in Hc. unfold is_word, is_letter, is_digit, in_range in Hc.
  rewrite !orb_true_iff, !andb_true_iff in Hc. rewrite !N.leb_le, !N.eqb_eq in Hc. lia.
Qed.
Lemma quoted_chars w : forallb (fun c => negb (c =? 39) && negb (c =? 92)) w = true -> Forall (fun c => c <> 39 /\ c <> 92) w.
Proof.
  intros H. apply stdpp.list.Forall_forall. intros c Hc. rewrite forallb_forall in H. apply elem_of_list_In, H in Hc.
  rewrite andb_true_iff, !negb_true_iff, !N.eqb_neq in Hc. done.
Qed.
Lemma not_reserved w : forallb (fun k => negb (str_eqb k w)) reserved = true -> w ∉ reserved.
Proof.
  intros H Hin. rewrite forallb_forall in H. apply elem_of_list_In, H in Hin. unfold str_eqb in Hin.
  rewrite bool_decide_true in Hin by done. done.
Qed.
Lemma ex_line_ok : line_ok (Some (chars "kernel")) ex_line.
Proof.
  split.
  - split; [done|]. unfold chars. repeat constructor; vm_compute; intuition congruence.
  - split.
    + split; [right; cbn; lia|]. repeat constructor.
    + unfold ex_line. do 7 (constructor; [shelve|]). constructor; [shelve|constructor]. Unshelve. all: cbn [snd setting_ok val_ok]; try exact I;
        try (split; [apply word_chars; [done|by vm_compute]|apply not_reserved; by vm_compute]);
        try (apply quoted_chars; by vm_compute);
        (split; [done|]; split; [repeat constructor|by vm_compute]).
Qed.
Example C64_hyps_met :
  line_ok (Some (chars "kernel")) ex_line /\ supported false true (meaning (map snd ex_line)) /\
  ~ supported true false (meaning (map snd ex_line)) /\
  write_line (Some (chars "kernel")) ex_line =
    chars "./kernel log=warn init=dbbench.bin   log=trace appcmd='--threads=1 --path=/tmp/db' mode=client transport=ethernet  mid=12 workers='04'" /\
  cmd_parse false true (write_line (Some (chars "kernel")) ex_line) =
    Ok (mkCA (chars "trace") (chars "dbbench.bin") [] (chars "--threads=1 --path=/tmp/db") None Client Ethernet 12 4) /\
  cmd_parse true true (write_line (Some (chars "kernel")) ex_line ++ chars " foo=1") = Err InvalidCmdLineOptions /\
  Forall arg_ok [chars "-v"; chars "x"] /\ crt_argv (chars "-v x") = Ok [chars "some.bin"; chars "x"; chars "-v"].
Proof.
  split; [exact ex_line_ok|]. split; [right; by vm_compute|]. split; [intros [H|H]; by vm_compute in H|].
  split; [by vm_compute|]. split; [by vm_compute|]. split; [by vm_compute|]. split; [|by vm_compute].
  repeat constructor; done.
Qed.
