(** Lemmas behind the theorems of RkProps: encodings, the handlers, the simulation. *)
From Verif Require Import Base FileModel RpcModel RpcSpec RpcProofs RpcProps FsModel RkModel RkSpec.
From stdpp Require Import functions.

(** ** Encodings *)

Lemma le_length k n : length (enc_le k n) = k.
Proof. revert n. induction k as [|k IH]; intros n; [done|]. cbn [enc_le length]. by rewrite IH. Qed.
Lemma of_le_le k n : (n < 256 ^ N.of_nat k)%N -> num_of (enc_le k n) = n.
Proof.
  revert n. induction k as [|k IH]; intros n H; [cbn in *; lia|].
  cbn [enc_le num_of]. rewrite IH.
  - pose proof (N.div_mod n 256 ltac:(lia)). lia.
  - rewrite Nat2N.inj_succ, N.pow_succ_r in H by lia. apply N.div_lt_upper_bound; lia.
Qed.
Lemma le64_length n : length (le64 n) = 8. Proof. apply le_length. Qed.
Lemma U64_pos : (0 < U64)%N. Proof. done. Qed.
Lemma of_le_le64 n : (n < U64)%N -> num_of (le64 n) = n.
Proof.
  intros H. unfold le64. rewrite N.mod_small by done. apply of_le_le.
  change (256 ^ N.of_nat 8)%N with U64. done.
Qed.
Lemma field_0 n l : (n < U64)%N -> field 0 (le64 n ++ l) = n.
Proof.
  intros H. unfold field. change (8 * 0) with 0. rewrite drop_0.
  rewrite take_app_alt by (by rewrite le64_length). by apply of_le_le64.
Qed.
Lemma field_S i n l : field (S i) (le64 n ++ l) = field i l.
Proof.
  unfold field. f_equal. f_equal. replace (8 * S i) with (length (le64 n) + 8 * i) by (rewrite le64_length; lia).
  rewrite <-drop_drop. by rewrite drop_app.
Qed.

Lemma to_i64_of_i64 z : (- 2 ^ 63 <= z < 2 ^ 63)%Z -> to_i64 (of_i64 z) = z.
Proof.
  intros H. unfold to_i64, of_i64. change (2 ^ 63)%N with 9223372036854775808%N.
  change (2 ^ 63)%Z with 9223372036854775808%Z in *. change (2 ^ 64)%Z with 18446744073709551616%Z in *.
  destruct (decide (0 <= z)%Z) as [L|L].
  - rewrite Z.mod_small by lia. destruct (decide _) as [D|D]; lia.
  - replace (z mod 18446744073709551616)%Z with (z + 18446744073709551616)%Z.
    2: { apply (Z.mod_unique_pos _ _ (-1)); lia. }
    destruct (decide _) as [D|D]; lia.
Qed.
Lemma of_i64_lt z : (of_i64 z < U64)%N.
Proof.
  unfold of_i64, U64. change (2 ^ 64)%N with 18446744073709551616%N. change (2 ^ 64)%Z with 18446744073709551616%Z.
  pose proof (Z.mod_pos_bound z 18446744073709551616 ltac:(lia)). lia.
Qed.

Lemma str_bytes_length s : length (str_bytes s) = String.length s.
Proof. unfold str_bytes. rewrite map_length. induction s as [|a s IH]; [done|]. cbn. by rewrite IH. Qed.
Lemma bytes_str_bytes s : bytes_str (str_bytes s) = s.
Proof.
  unfold bytes_str, str_bytes. rewrite map_map.
  rewrite (map_ext _ (fun x => x)) by (intros; apply Ascii.ascii_N_embedding).
  rewrite map_id. apply String.string_of_list_ascii_of_string.
Qed.

(** Errors without a payload: those the file system returns. *)
Definition plain_error (e : kerror) : Prop :=
  match e with CantGrowFurther _ | AlreadyMapped _ | BaseOverflow _ => False | _ => True end.
Lemma err_roundtrip e : plain_error e -> let '(c, p) := err_code e in
  (0 < c < U64)%N /\ (p < U64)%N /\ err_of_code c p = Some e.
Proof. destruct e; cbn [plain_error]; intros H; try done. Qed.

Definition kres_typed (r : N * N + kerror) : Prop :=
  match r with inl (a, b) => (a < U64 /\ b < U64)%N | inr e => plain_error e end.
Lemma enc_kres_length r : length (enc_kres r) = KRES_SIZE.
Proof.
  destruct r as [[a b]|e]; cbn [enc_kres].
  - by rewrite !app_length, !le64_length.
  - destruct (err_code e). by rewrite !app_length, !le64_length.
Qed.
Lemma dec_enc_kres r : kres_typed r -> dec_kres (enc_kres r) = Some r.
Proof.
  destruct r as [[a b]|e]; cbn [enc_kres kres_typed]; intros H.
  - destruct H as [Ha Hb]. unfold dec_kres. rewrite field_0 by done. rewrite decide_True by done.
    rewrite !field_S. rewrite field_0 by done.
    pose proof (field_0 b [] Hb) as F. rewrite app_nil_r in F. by rewrite F.
  - pose proof (err_roundtrip e H) as R. destruct (err_code e) as [c p]. destruct R as (R1 & R2 & R3).
    unfold dec_kres. rewrite field_0 by (apply R1). rewrite decide_False by lia.
    rewrite !field_S. rewrite field_0 by done. by rewrite R3.
Qed.

(** ** What the file system returns *)

Lemma with_mnode_inv n pid fd k r n' : with_mnode n pid fd k = (r, n') ->
  (exists m, k m = (r, n')) \/ r = Panic \/ r = Err InvalidFileDescriptor.
Proof.
  unfold with_mnode. destruct (dispatch n (FdToMnode pid fd)) as [[x|e|] n1].
  - destruct x; intros H; try (left; by eexists); right; right; congruence.
  - intros H; right; right; congruence.
  - intros H; right; left; congruence.
Qed.

Ltac crush := repeat (case_match; simplify_eq; try done).

Lemma write_file_err ps av f d off e f' : write_file ps av f d off = (Err e, f') -> plain_error e.
Proof.
  unfold write_file. intros H.
  match type of H with (let '(_, _) := ?x in _) = _ => destruct x as [ok l] end.
  destruct ok; cbn [negb] in H; [|by injection H as <- <-].
  by destruct (write_loop _ _ _ _ _ _ _).
Qed.
Lemma fs_write_err av f num d off e f' : fs_write av f num d off = (Err e, f') -> plain_error e.
Proof.
  unfold fs_write, memnode_write. intros H.
  destruct (mnodes f !! num) as [m|]; [|by injection H as <- <-].
  destruct (mn_type m); [by injection H as <- <-|]. destruct (mn_file m) as [fl|]; [|done].
  destruct (is_writable _); cbn [negb] in H; [|by injection H as <- <-].
  destruct (write_file _ _ _ _ _) as [r g] eqn:E. injection H as -> <-. eauto using write_file_err.
Qed.
Lemma fs_truncate_err f p e f' : fs_truncate f p = (Err e, f') -> plain_error e.
Proof. unfold fs_truncate, memnode_truncate. intros H. crush. Qed.
Lemma fs_insert_err f p m t e f' : fs_insert_node f p m t = (Err e, f') -> plain_error e.
Proof. unfold fs_insert_node. intros H. crush. Qed.
Lemma fs_read_err f num d off e : fs_read f num d off = Err e -> plain_error e.
Proof.
  unfold fs_read, memnode_read. intros H. destruct (mnodes f !! num) as [m|]; [|by injection H as <-].
  destruct (mn_type m); [by injection H as <-|]. destruct (mn_file m) as [fl|]; [|done].
  destruct (is_readable _); cbn [negb] in H; [|by injection H as <-].
  destruct (decide _); [done|]. destruct (decide _); [done|]. destruct (decide _); [by injection H as <-|].
  unfold read_file in H. by destruct (read_loop _ _ _ _ _ _ _ _).
Qed.
Lemma fs_info_err f num e : fs_file_info f num = Err e -> plain_error e.
Proof. unfold fs_file_info. intros H. crush. Qed.

Lemma lift_err {A} n (r : res A * mlnrfs) ok e n' : lift_fs n r ok = (Err e, n') -> r.1 = Err e.
Proof. unfold lift_fs. destruct r as [[x|e1|] f]; cbn; intros [=]. by subst. Qed.
Lemma lift_ok {A} n (r : res A * mlnrfs) ok x n' : lift_fs n r ok = (Ok x, n') -> x = ok.
Proof. unfold lift_fs. destruct r as [[y|e1|] f]; cbn; intros [=]. by subst. Qed.

Lemma step_err av n r e n' : step av n r = (Err e, n') -> plain_error e.
Proof.
  destruct r as [pid|pid name flags modes|pid fd d off|pid fd len off|pid fd|pid name|pid name|pid old new|pid name modes];
    cbn [step dispatch_mut].
  - intros H. crush.
  - unfold dispatch_open. intros H.
    repeat (case_match; simplify_eq; try done); eauto using fs_truncate_err, fs_insert_err.
  - intros H. apply with_mnode_inv in H as [[m H]|[H|H]]; [|done|by injection H as ->].
    cbn [dispatch_mut] in H. unfold dispatch_write in H.
    destruct (pmap n !! pid); [|done]. destruct (get_fd _ _) as [en|]; [|by injection H as <- <-].
    destruct (is_write _); [|by injection H as <- <-]. cbn [negb] in H.
    match goal with H : match ?x with Ok _ => _ | Err _ => _ | Panic => _ end = _ |- _ =>
      destruct x as [cu|er|] eqn:Ec end; [|injection H as <- <-|done].
    + destruct (fs_write av (fs n) (fd_mnode en) d cu) as [[k|e1|] f'] eqn:Ew; [done| |done].
      injection H as <- <-. eauto using fs_write_err.
    + destruct off; [done|]. destruct (is_append _); [|done].
      destruct (fs_file_info (fs n) (fd_mnode en)) eqn:Ei; [done| |done]. injection Ec as <-. eauto using fs_info_err.
  - intros H. apply with_mnode_inv in H as [[m H]|[H|H]]; [|done|by injection H as ->].
    cbn [dispatch] in H. repeat (case_match; simplify_eq; try done); eauto using fs_read_err.
  - intros H. unfold deallocate_fd in H. crush.
  - intros H. cbn [dispatch] in H. repeat (case_match; simplify_eq; try done); eauto using fs_info_err.
  - intros H. destruct (pmap n !! pid); [|by injection H as <- <-]. apply lift_err in H.
    unfold fs_delete in H. destruct (files _ !! name); [done|]. by injection H as <-.
  - intros H. destruct (pmap n !! pid); [|by injection H as <- <-]. apply lift_err in H.
    unfold fs_rename in H. destruct (files _ !! old); [|by injection H as <-]. cbn zeta in H.
    destruct (files (match files (fs n) !! new with Some _ => _ | None => _ end) !! old); [|by injection H as <-].
    destruct (_ !! new); [by injection H as <-|done].
  - intros H. destruct (pmap n !! pid); [|by injection H as <- <-]. apply lift_err in H.
    destruct (fs_mkdir _ _ _) as [r f] eqn:E. cbn in H. subst r. by eapply fs_insert_err.
Qed.

(** A read counts at most the bytes asked for, and the buffer keeps its length. *)
Lemma copy_into_length {A} (b d b' : list A) o : copy_into b o d = Some b' -> length b' = length b.
Proof.
  unfold copy_into. destruct (decide _); [|done]. intros [= <-]. rewrite !app_length, take_length, drop_length. lia.
Qed.
Lemma read_loop_length ps fuel l dst len bn off cp dst' :
  read_loop ps fuel l dst len bn off cp = Some dst' -> length dst' = length dst.
Proof.
  revert dst bn off cp. induction fuel as [|fuel IH]; intros dst bn off cp H; cbn [read_loop] in H.
  - destruct (decide _); [done|]. by injection H as <-.
  - destruct (decide _); [|by injection H as <-]. destruct (l !! bn); [|done]. cbn in H.
    destruct (decide (length _ < off)); [done|].
    match type of H with context [copy_into ?b ?o ?d] => destruct (copy_into b o d) as [d1|] eqn:Ec end; [|done].
    cbn in H. apply IH in H. rewrite H. eauto using copy_into_length.
Qed.
Lemma memnode_read_count m dst off k dst' : memnode_read m dst off = Ok (k, dst') ->
  k <= length dst /\ length dst' = length dst.
Proof.
  unfold memnode_read. intros H. destruct (mn_type m); [done|]. destruct (mn_file m) as [fl|]; [|done].
  destruct (is_readable _); cbn [negb] in H; [|done].
  destruct (decide _); [injection H as <- <-; split; [lia|done]|].
  destruct (decide _); [injection H as <- <-; split; [lia|done]|]. destruct (decide _); [done|].
  unfold read_file in H. destruct (read_loop _ _ _ _ _ _ _ _) as [d|] eqn:E; [|done].
  injection H as <- <-. split; [lia|]. eauto using read_loop_length.
Qed.
Lemma read_count av n pid fd len off k d n' :
  step av n (RRead pid fd len off) = (Ok (FileRed k d), n') -> k <= len /\ length d = len.
Proof.
  cbn [step]. intros H. apply with_mnode_inv in H as [[m H]|[H|H]]; [|done|done].
  cbn [dispatch] in H. destruct (pmap n !! pid); [|done]. destruct (get_fd _ _) as [en|]; [|done].
  destruct (is_read _); [|done]. cbn [negb] in H.
  match type of H with context [fs_read ?a ?b ?c ?d] => destruct (fs_read a b c d) as [[k1 d1]|e1|] eqn:Er end; try done.
  unfold fs_read in Er. destruct (mnodes (fs n) !! fd_mnode en) as [mn|]; [|done].
  apply memnode_read_count in Er. rewrite replicate_length in Er.
  destruct off; simplify_eq; exact Er.
Qed.
Lemma step_read_kind av n pid fd len off x n' :
  step av n (RRead pid fd len off) = (Ok x, n') -> exists k d, x = FileRed k d.
Proof.
  cbn [step]. intros H. apply with_mnode_inv in H as [[m H]|[H|H]]; [|done|done].
  cbn [dispatch] in H. repeat (case_match; simplify_eq; try done); eauto.
Qed.
(** Only a read gives bytes. *)
Lemma step_no_data av n c x n' : step av n (req_of c) = (x, n') ->
  (forall pid fd len off, c <> CRead pid fd len off) -> bytes_read x = [].
Proof.
  intros H NR. destruct x as [x|e|]; [|done|done]. destruct x; try done. exfalso.
  destruct c as [pid path fl md|pid fd len off|pid fd d' off|pid fd|pid path|pid path|pid old new|pid path md];
    cbn [req_of step dispatch_mut] in H.
  - unfold dispatch_open in H. crush.
  - by eapply NR.
  - apply with_mnode_inv in H as [[m H]|[H|H]]; [|done|done]. cbn [dispatch_mut] in H. unfold dispatch_write in H. crush.
  - crush.
  - cbn [dispatch] in H. crush.
  - destruct (pmap n !! pid); [|done]. by apply lift_ok in H.
  - destruct (pmap n !! pid); [|done]. by apply lift_ok in H.
  - destruct (pmap n !! pid); [|done]. by apply lift_ok in H.
Qed.

Lemma kres_of_typed av n r o n' k : step av n r = (o, n') -> kres_of o = Some k -> kres_typed k.
Proof.
  assert (M : forall x, (x mod U64 < U64)%N) by (intros; apply N.mod_lt; done).
  intros H K. destruct o as [x|e|]; cbn in K; [|injection K as <-; cbn; eauto using step_err|done].
  destruct x; injection K as <-; cbn [kres_typed]; split; try apply M; done.
Qed.

(** ** The handlers *)

Lemma construct_ret_typed st h buf r st' h' d' : construct_ret st h buf r = (st', inl (h', d')) ->
  length d' = length buf /\ (r_id h' < 256 /\ r_type h' < 256 /\ r_len h' < 65536)%N.
Proof.
  unfold construct_ret. destruct r as [r|]; [|done]. destruct (decide _) as [L|]; [|done].
  intros [= <- <- <-]. split; [rewrite app_length, drop_length, enc_kres_length; lia|].
  cbn. split; [apply N.mod_lt; lia|]. split; [apply N.mod_lt; lia|lia].
Qed.
Lemma with_path_typed st h buf k mk st' h' d' : with_path st h buf k mk = (st', inl (h', d')) ->
  length d' = length buf /\ (r_id h' < 256 /\ r_type h' < 256 /\ r_len h' < 65536)%N.
Proof.
  unfold with_path. destruct (get_str _ _ _); [|apply construct_ret_typed|done].
  destruct (fs_call st (mk a)). apply construct_ret_typed.
Qed.

Lemma registers_from {St} (l : list (N * handler St)) s i f :
  sv_handlers (server_registers s l).1 !! i = Some f -> sv_handlers s !! i = Some f \/ (i, f) ∈ l.
Proof.
  revert s. induction l as [|[id h] l IH]; intros s; cbn [server_registers]; [by left|].
  destruct (server_register s id h) as [s1 r] eqn:E.
  destruct (server_registers s1 l) as [s2 rs] eqn:E2. cbn [fst]. intros H.
  specialize (IH s1). rewrite E2 in IH. destruct (IH H) as [H1|H1].
  - unfold server_register in E. destruct (sv_handlers s !! id); injection E as <- <-; [by left|].
    cbn [sv_handlers] in H1. apply lookup_insert_Some in H1 as [[-> ->]|[_ H1]]; [right; left|by left].
  - right. by right.
Qed.
Lemma file_handlers_typed i f st : sv_handlers (controller st) !! i = Some f -> handler_typed f.
Proof.
  intros H. apply registers_from in H as [H|H]; [cbn [server_new sv_handlers] in H; by rewrite lookup_empty in H|].
  assert (D : f ∈ [handle_close; handle_delete; handle_getinfo; handle_mkdir; handle_open; handle_rename;
    handle_write; handle_read]).
  { unfold file_rpcs in H. rewrite !elem_of_cons in H. rewrite !elem_of_cons.
    repeat (destruct H as [H|H]; [injection H as _ ->; tauto|]). by apply elem_of_nil in H. }
  clear H. rewrite !elem_of_cons in D.
  destruct D as [->|[->|[->|[->|[->|[->|[->|[->|D]]]]]]]]; [..|by apply elem_of_nil in D];
    intros st0 h buf st' h' d'; try apply with_path_typed.
  - unfold handle_close. destruct (fs_call _ _). apply construct_ret_typed.
  - unfold handle_rename. destruct (get_str _ _ _); [|destruct (get_str _ _ _); try done; apply construct_ret_typed|done].
    destruct (get_str _ _ _); [|apply construct_ret_typed|done]. destruct (fs_call _ _). apply construct_ret_typed.
  - unfold handle_write. destruct (decide (40 + _ <= _)); [|done]. destruct (fs_call _ _). apply construct_ret_typed.
  - unfold handle_read. destruct (fs_call _ _). apply construct_ret_typed.
Qed.

Lemma controller_handlers st :
  sv_handlers (controller st) !! RPC_OPEN = Some handle_open /\
  sv_handlers (controller st) !! RPC_READ_AT = Some handle_read /\
  sv_handlers (controller st) !! RPC_WRITE = Some handle_write /\
  sv_handlers (controller st) !! RPC_WRITE_AT = Some handle_write /\
  sv_handlers (controller st) !! RPC_CLOSE = Some handle_close /\
  sv_handlers (controller st) !! RPC_GET_INFO = Some handle_getinfo /\
  sv_handlers (controller st) !! RPC_DELETE = Some handle_delete /\
  sv_handlers (controller st) !! RPC_FILE_RENAME = Some handle_rename /\
  sv_handlers (controller st) !! RPC_MK_DIR = Some handle_mkdir.
Proof. split_and!; reflexivity. Qed.
Lemma controller_same st st' : sv_handlers (controller st) = sv_handlers (controller st').
Proof. reflexivity. Qed.

Lemma get_str_ok pre s post : utf8 (str_bytes s) = true ->
  get_str (pre ++ str_bytes s ++ post) (length pre) (length pre + length (str_bytes s)) = Ok s.
Proof.
  intros H. unfold get_str. rewrite decide_True by (rewrite !app_length; lia).
  rewrite drop_app. replace (length pre + length (str_bytes s) - length pre) with (length (str_bytes s)) by lia.
  rewrite take_app, H. by rewrite bytes_str_bytes.
Qed.
Lemma get_str_at pre s post i j buf : utf8 (str_bytes s) = true ->
  buf = pre ++ str_bytes s ++ post -> i = length pre -> j = i + length (str_bytes s) -> get_str buf i j = Ok s.
Proof. intros H -> -> ->. by apply get_str_ok. Qed.

(** A request as the handler finds it. *)
Lemma request_split id din h buf : request_of id din h buf -> exists rest,
  buf = concat din ++ rest /\ N.to_nat (r_len h) = length (concat din) /\ r_type h = id /\ KRES_SIZE <= length buf.
Proof.
  intros (R1 & R2 & R3 & R4). exists (drop (length (concat din)) buf).
  split; [rewrite <-R4 at 1; by rewrite take_drop|]. split; [lia|]. split; [done|]. unfold KRES_SIZE. lia.
Qed.

Definition answer (h : rpchdr) (buf : list N) (k : N * N + kerror) : rpchdr * list N :=
  (mkHdr (r_id h mod 256) (r_type h mod 256) (N.of_nat KRES_SIZE), enc_kres k ++ drop KRES_SIZE buf).
Lemma construct_ret_some st h buf k : KRES_SIZE <= length buf ->
  construct_ret st h buf (Some k) = (st, inl (answer h buf k)).
Proof. intros H. unfold construct_ret. by rewrite decide_True. Qed.

(** What a handler does for a call: the local call; the bytes read go to the shared buffer. *)
Definition effect (st : rack) (h : rpchdr) (buf : list N) (ptr : N) (c : fcall) : rack * (rpchdr * list N + nat) :=
  match local_call (hd 0 (k_av st)) (k_node st) c with
  | (Some r, n') => (mkRack n' (tl (k_av st)) (mem_write (k_mem st) ptr r.2), inl (answer h buf r.1))
  | (None, n') => (mkRack n' (tl (k_av st)) (k_mem st), inr 0)
  end.

Lemma plain_effect st h buf ptr c : (forall pid fd len off, c <> CRead pid fd len off) -> KRES_SIZE <= length buf ->
  (let '(r, st') := fs_call st (req_of c) in construct_ret st' h buf (kres_of r)) = effect st h buf ptr c.
Proof.
  intros NR L. unfold effect, local_call, fs_call. destruct (step _ _ _) as [o n'] eqn:E.
  rewrite (step_no_data _ _ _ _ _ E NR). destruct (kres_of o) as [k|]; [|done].
  rewrite construct_ret_some by done. done.
Qed.

Lemma off_of_i64 off : (- 2 ^ 63 <= off < 2 ^ 63)%Z -> off_of (to_i64 (of_i64 off)) = off_of off.
Proof. intros H. by rewrite to_i64_of_i64. Qed.

Lemma fd_u64 fd : fd < MAX_FILES_PER_PROCESS -> (N.of_nat fd < U64)%N.
Proof. unfold MAX_FILES_PER_PROCESS, U64. change (2 ^ 64)%N with 18446744073709551616%N. lia. Qed.

Local Opaque le64 str_bytes RW_SHMEM_BUF_LEN MAX_FILES_PER_PROCESS BASE_PAGE_SIZE.
Lemma stub_din ptr c id din : stub ptr c = Some (id, din) -> transferable c -> fits din /\ (id < 256)%N.
Proof.
  intros H T. unfold fits.
  destruct c as [pid path fl md|pid fd len off|pid fd d off|pid fd|pid path|pid path|pid old new|pid path md];
    cbn [stub] in H; cbn [transferable] in T; unfold str_len in T; rewrite <-?str_bytes_length in T.
  2: destruct (decide _); [|done].
  all: injection H as <- <-; cbn [concat length app]; rewrite ?app_nil_r, ?app_length, ?le64_length.
  all: split; [split; lia|try done]. by destruct (decide _).
Qed.

Lemma handler_correct st0 ptr c id din st h buf :
  stub ptr c = Some (id, din) -> well_typed c -> transferable c -> (ptr < U64)%N -> request_of id din h buf ->
  exists f, sv_handlers (controller st0) !! id = Some f /\ f st h buf = effect st h buf ptr c.
Proof.
  intros HS WT TR HP RQ.
  destruct (request_split _ _ _ _ RQ) as (rest & Hb & Hlen & Hty & HK).
  assert (Lb : N.of_nat (length buf) = 8192%N) by apply RQ.
  destruct (controller_handlers st0) as (K1 & K2 & K3 & K3' & K4 & K5 & K6 & K7 & K8).
  destruct c as [pid path fl md|pid fd len off|pid fd d off|pid fd|pid path|pid path|pid old new|pid path md];
    cbn [stub] in HS.
  - injection HS as <- <-. exists handle_open. split; [done|]. destruct WT as [(W1 & W2 & W3) W4].
    cbn [concat] in Hb, Hlen. rewrite <-!app_assoc in Hb. cbn [app] in Hb.
    rewrite !app_length, !le64_length in Hlen. cbn [length] in Hlen.
    unfold handle_open, with_path.
    rewrite (get_str_at (le64 pid ++ le64 fl ++ le64 md) path rest);
      [|done|by rewrite <-!app_assoc|by rewrite !app_length, !le64_length|lia].
    rewrite Hb at 1 2 3. rewrite field_0 by done. rewrite !field_S. rewrite !field_0 by done.
    by apply (plain_effect st h buf ptr (COpen pid path fl md)).
  - destruct (decide _) as [Dl|Dl]; [clear Dl|discriminate HS]. injection HS as <- <-. exists handle_read. split; [done|].
    destruct WT as (W1 & W2 & W3 & W4). apply fd_u64 in W2.
    cbn [concat] in Hb, Hlen. rewrite <-!app_assoc in Hb. cbn [app] in Hb.
    assert (F0 : field 0 buf = pid) by (rewrite Hb; by apply field_0).
    assert (F1 : field 1 buf = N.of_nat fd) by (rewrite Hb, field_S; by apply field_0).
    assert (F2 : field 2 buf = ptr) by (rewrite Hb, !field_S; by apply field_0).
    assert (F3 : field 3 buf = N.of_nat len) by (rewrite Hb, !field_S; by apply field_0).
    assert (F4 : field 4 buf = of_i64 off) by (rewrite Hb, !field_S; apply field_0, of_i64_lt).
    unfold handle_read. rewrite F0, F1, F2, F3, F4, Hty, !Nat2N.id. rewrite decide_True by reflexivity.
    rewrite off_of_i64 by exact W4.
    unfold effect, local_call, fs_call. cbn [req_of].
    destruct (step (hd 0 (k_av st)) (k_node st) (RRead pid fd len (off_of off))) as [o n'] eqn:E.
    destruct o as [x|e|]; [|cbn [kres_of]; rewrite (construct_ret_some _ _ _ _ HK); reflexivity|reflexivity].
    destruct (step_read_kind _ _ _ _ _ _ _ _ E) as (k & d & ->). cbn [kres_of bytes_read].
    rewrite (construct_ret_some _ _ _ _ HK). reflexivity.
  - injection HS as <- <-. exists handle_write. split; [destruct (decide _); done|].
    destruct WT as (W1 & W2 & W3). apply fd_u64 in W2. cbn [transferable] in TR.
    cbn [concat] in Hb, Hlen. rewrite <-!app_assoc in Hb. cbn [app] in Hb.
    assert (Wd : (N.of_nat (length d) < U64)%N).
    { unfold U64. change (2 ^ 64)%N with 18446744073709551616%N. lia. }
    assert (F0 : field 0 buf = pid) by (rewrite Hb; by apply field_0).
    assert (F1 : field 1 buf = N.of_nat fd) by (rewrite Hb, field_S; by apply field_0).
    assert (F3 : field 3 buf = N.of_nat (length d)) by (rewrite Hb, !field_S; by apply field_0).
    assert (F4 : field 4 buf = of_i64 off) by (rewrite Hb, !field_S; apply field_0, of_i64_lt).
    assert (Fd : take (length d) (drop 40 buf) = d).
    { rewrite Hb, !app_assoc. rewrite <-(app_assoc _ d rest).
      rewrite drop_app_alt by (by rewrite !app_length, !le64_length). by rewrite take_app. }
    unfold handle_write. rewrite F0, F1, F3, F4, !Nat2N.id, Fd, Hty.
    rewrite decide_True by lia.
    assert (Ho : off_of (if decide ((if decide (off = (-1)%Z) then RPC_WRITE else RPC_WRITE_AT) = RPC_WRITE)
      then (-1)%Z else to_i64 (of_i64 off)) = off_of off).
    { destruct (decide (off = (-1)%Z)) as [->|].
      - by rewrite decide_True.
      - rewrite decide_False by done. by apply off_of_i64. }
    rewrite Ho. by apply (plain_effect st h buf ptr (CWrite pid fd d off)).
  - injection HS as <- <-. exists handle_close. split; [done|]. destruct WT as [W1 W2]. apply fd_u64 in W2.
    cbn [concat] in Hb, Hlen. rewrite <-!app_assoc in Hb. cbn [app] in Hb.
    unfold handle_close. rewrite Hb at 1 2. rewrite field_0 by done. rewrite field_S, field_0 by done.
    rewrite Nat2N.id. by apply (plain_effect st h buf ptr (CClose pid fd)).
  - injection HS as <- <-. exists handle_getinfo. split; [done|]. destruct WT as [W1 W4].
    cbn [concat] in Hb, Hlen. rewrite <-!app_assoc in Hb. cbn [app] in Hb.
    rewrite !app_length, !le64_length in Hlen. cbn [length] in Hlen.
    unfold handle_getinfo, with_path.
    rewrite (get_str_at (le64 pid) path rest); [|done|done|by rewrite le64_length|lia].
    rewrite Hb at 1. rewrite field_0 by done.
    by apply (plain_effect st h buf ptr (CInfo pid path)).
  - injection HS as <- <-. exists handle_delete. split; [done|]. destruct WT as [W1 W4].
    cbn [concat] in Hb, Hlen. rewrite <-!app_assoc in Hb. cbn [app] in Hb.
    rewrite !app_length, !le64_length in Hlen. cbn [length] in Hlen.
    unfold handle_delete, with_path.
    rewrite (get_str_at (le64 pid) path rest); [|done|done|by rewrite le64_length|lia].
    rewrite Hb at 1. rewrite field_0 by done.
    by apply (plain_effect st h buf ptr (CDelete pid path)).
  - injection HS as <- <-. exists handle_rename. split; [done|]. destruct WT as (W1 & W4 & W5).
    cbn [transferable] in TR. unfold str_len in TR. rewrite <-!str_bytes_length in TR.
    cbn [concat] in Hb, Hlen. rewrite <-!app_assoc in Hb. cbn [app] in Hb.
    rewrite !app_length, !le64_length in Hlen. cbn [length] in Hlen.
    assert (Wd : (N.of_nat (length (str_bytes old)) < U64)%N).
    { unfold U64. change (2 ^ 64)%N with 18446744073709551616%N. lia. }
    assert (F0 : field 0 buf = pid) by (rewrite Hb; by apply field_0).
    assert (F1 : field 1 buf = N.of_nat (length (str_bytes old))) by (rewrite Hb, field_S; by apply field_0).
    unfold handle_rename. rewrite F0, F1, Nat2N.id. cbn zeta.
    rewrite (get_str_at (le64 pid ++ le64 (N.of_nat (length (str_bytes old)))) old (str_bytes new ++ rest));
      [|done|by rewrite <-!app_assoc|by rewrite !app_length, !le64_length|done].
    rewrite (get_str_at (le64 pid ++ le64 (N.of_nat (length (str_bytes old))) ++ str_bytes old) new rest);
      [|done|by rewrite <-!app_assoc|rewrite !app_length, !le64_length; lia|lia].
    by apply (plain_effect st h buf ptr (CRename pid old new)).
  - injection HS as <- <-. exists handle_mkdir. split; [done|]. destruct WT as [[W1 W2] W4].
    cbn [concat] in Hb, Hlen. rewrite <-!app_assoc in Hb. cbn [app] in Hb.
    rewrite !app_length, !le64_length in Hlen. cbn [length] in Hlen.
    unfold handle_mkdir, with_path.
    rewrite (get_str_at (le64 pid ++ le64 md) path rest);
      [|done|by rewrite <-!app_assoc|by rewrite !app_length, !le64_length|lia].
    rewrite Hb at 1 2. rewrite field_0 by done. rewrite !field_S. rewrite !field_0 by done.
    by apply (plain_effect st h buf ptr (CMkDir pid path md)).
Qed.
