(** Proofs about what a program learns about itself and the machine (C65). *)
From Verif Require Import Base SysModel SysProps InfModel InfSpec.
Open Scope N_scope.

(** * Numbers as bytes *)
Lemma le_length k n : length (le k n) = k.
Proof. revert n. induction k as [|k IH]; intros n; cbn [le length]; [done|]. by rewrite IH. Qed.
Lemma of_le_le k n : n < 256 ^ N.of_nat k -> of_le (le k n) = n.
Proof.
  revert n. induction k as [|k IH]; intros n Hn; [cbn in *; lia|].
  cbn [le]. change (of_le (n mod 256 :: le k (n / 256))) with (n mod 256 + 256 * of_le (le k (n / 256))).
  rewrite IH.
  - rewrite N.add_comm. symmetry. apply N.div_mod. lia.
  - apply N.div_lt_upper_bound; [lia|]. rewrite Nat2N.inj_succ, N.pow_succ_r' in Hn. lia.
Qed.
Lemma be_length k n : length (be k n) = k.
Proof. unfold be. by rewrite reverse_length, le_length. Qed.
Lemma of_be_be k n : n < 256 ^ N.of_nat k -> of_be (be k n) = n.
Proof. intros H. unfold of_be, be. rewrite reverse_involutive. by apply of_le_le. Qed.

(** * CBOR *)
Lemma dec_bytes_be k n r : n < 256 ^ N.of_nat k -> dec_bytes k (be k n ++ r) = Some (n, r).
Proof.
  intros H. unfold dec_bytes. rewrite app_length, be_length. destruct (Nat.leb_spec k (k + length r)); [|lia].
  rewrite take_app_alt by (by rewrite be_length). rewrite drop_app_alt by (by rewrite be_length). by rewrite of_be_be.
Qed.
Lemma head_byte m i : i < 32 -> (32 * m + i) / 32 = m /\ (32 * m + i) mod 32 = i.
Proof.
  intros H. split.
  - symmetry. apply (N.div_unique _ _ _ i); lia.
  - symmetry. apply (N.mod_unique _ _ m); lia.
Qed.
Lemma dec_enc_head m n r : n < 2 ^ 64 -> dec_head (enc_head m n ++ r) = Some (m, n, r).
Proof.
  intros Hn. unfold enc_head.
  destruct (N.ltb_spec n 24) as [H1|H1].
  { cbn [app]. unfold dec_head. destruct (head_byte m n ltac:(lia)) as [-> ->].
    apply N.ltb_lt in H1. by rewrite H1. }
  destruct (N.ltb_spec n (2 ^ 8)) as [H2|H2].
  { rewrite <- app_comm_cons. unfold dec_head. destruct (head_byte m 24 ltac:(lia)) as [-> ->]. cbn iota.
    change (24 <? 24) with false. change (24 =? 24) with true. cbn iota. by rewrite dec_bytes_be. }
  destruct (N.ltb_spec n (2 ^ 16)) as [H3|H3].
  { rewrite <- app_comm_cons. unfold dec_head. destruct (head_byte m 25 ltac:(lia)) as [-> ->]. cbn iota.
    change (25 <? 24) with false. change (25 =? 24) with false. change (25 =? 25) with true. cbn iota.
    by rewrite dec_bytes_be. }
  destruct (N.ltb_spec n (2 ^ 32)) as [H4|H4].
  { rewrite <- app_comm_cons. unfold dec_head. destruct (head_byte m 26 ltac:(lia)) as [-> ->]. cbn iota.
    change (26 <? 24) with false. change (26 =? 24) with false. change (26 =? 25) with false.
    change (26 =? 26) with true. cbn iota. by rewrite dec_bytes_be. }
  rewrite <- app_comm_cons. unfold dec_head. destruct (head_byte m 27 ltac:(lia)) as [-> ->]. cbn iota.
  change (27 <? 24) with false. change (27 =? 24) with false. change (27 =? 25) with false.
  change (27 =? 26) with false. change (27 =? 27) with true. cbn iota. by rewrite dec_bytes_be.
Qed.
Lemma head_length m n : (1 <= length (enc_head m n) <= 9)%nat /\ (n < 2 ^ 8 -> (length (enc_head m n) <= 2)%nat).
Proof.
  unfold enc_head.
  destruct (n <? 24). { cbn [length]. lia. }
  destruct (N.ltb_spec n (2 ^ 8)). { cbn [length]. rewrite be_length. lia. }
  destruct (n <? 2 ^ 16). { cbn [length]. rewrite be_length. lia. }
  destruct (n <? 2 ^ 32); cbn [length]; rewrite be_length; lia.
Qed.
Lemma dec_uint n r : n < 2 ^ 64 -> dec_item (enc_uint n ++ r) = Some (IInt n, r).
Proof. intros H. unfold dec_item, enc_uint. by rewrite dec_enc_head. Qed.
Lemma dec_bool b r : dec_item (enc_bool b ++ r) = Some (IBool b, r).
Proof. by destruct b. Qed.
Lemma dec_text s r : N.of_nat (length s) < 2 ^ 64 -> dec_item (enc_text s ++ r) = Some (IText s, r).
Proof.
  intros H. unfold dec_item, enc_text. rewrite <- app_assoc, dec_enc_head by done.
  change (3 =? 0) with false. change (3 =? 3) with true. cbn iota.
  destruct (N.leb_spec (N.of_nat (length s)) (N.of_nat (length (s ++ r)))) as [_|Hl].
  - rewrite Nat2N.id. by rewrite take_app, drop_app.
  - rewrite app_length in Hl. lia.
Qed.
Lemma dec_entries_cons k key v bs r : N.of_nat (length key) < 2 ^ 64 -> dec_item (bs ++ r) = Some (v, r) ->
  dec_entries (S k) (enc_text key ++ bs ++ r) =
  match dec_entries k r with Some (l, s) => Some ((key, v) :: l, s) | None => None end.
Proof. intros Hk Hv. cbn [dec_entries]. rewrite dec_text by done. by rewrite Hv. Qed.

Definition entries (p : pinfo) : list (list N * item) :=
  [(str_bytes "pid", IInt (pi_pid p)); (str_bytes "has_tls", IBool (pi_has_tls p));
   (str_bytes "tls_data", IInt (pi_tls_data p)); (str_bytes "tls_data_len", IInt (pi_tls_data_len p));
   (str_bytes "tls_len_total", IInt (pi_tls_len_total p)); (str_bytes "alignment", IInt (pi_align p));
   (str_bytes "cmdline", IText (pi_cmdline p)); (str_bytes "app_cmdline", IText (pi_app p))].
Definition enc_body (p : pinfo) : list N :=
  enc_text (str_bytes "pid") ++ enc_uint (pi_pid p) ++
  enc_text (str_bytes "has_tls") ++ enc_bool (pi_has_tls p) ++
  enc_text (str_bytes "tls_data") ++ enc_uint (pi_tls_data p) ++
  enc_text (str_bytes "tls_data_len") ++ enc_uint (pi_tls_data_len p) ++
  enc_text (str_bytes "tls_len_total") ++ enc_uint (pi_tls_len_total p) ++
  enc_text (str_bytes "alignment") ++ enc_uint (pi_align p) ++
  enc_text (str_bytes "cmdline") ++ enc_text (pi_cmdline p) ++
  enc_text (str_bytes "app_cmdline") ++ enc_text (pi_app p).
Lemma dec_body p : pinfo_ok p -> N.of_nat (length (pi_cmdline p)) < 2 ^ 64 -> N.of_nat (length (pi_app p)) < 2 ^ 64 ->
  dec_entries 8 (enc_body p) = Some (entries p, []).
Proof.
  intros (H1 & H2 & H3 & H4 & H5) Hc Ha. unfold enc_body.
  rewrite (dec_entries_cons _ _ (IInt (pi_pid p))) by (done || by apply dec_uint).
  rewrite (dec_entries_cons _ _ (IBool (pi_has_tls p))) by (done || apply dec_bool).
  rewrite (dec_entries_cons _ _ (IInt (pi_tls_data p))) by (done || by apply dec_uint).
  rewrite (dec_entries_cons _ _ (IInt (pi_tls_data_len p))) by (done || by apply dec_uint).
  rewrite (dec_entries_cons _ _ (IInt (pi_tls_len_total p))) by (done || by apply dec_uint).
  rewrite (dec_entries_cons _ _ (IInt (pi_align p))) by (done || by apply dec_uint).
  rewrite (dec_entries_cons _ _ (IText (pi_cmdline p))) by (done || by apply dec_text).
  rewrite <- (app_nil_r (enc_text (pi_app p))).
  rewrite (dec_entries_cons _ _ (IText (pi_app p))) by (done || by apply dec_text).
  done.
Qed.
Lemma text_length s : length (enc_text s) = (length (enc_head 3 (N.of_nat (length s))) + length s)%nat.
Proof. unfold enc_text. by rewrite app_length. Qed.
Lemma body_length p : length (enc_body p) =
  (79 + (length (enc_uint (pi_pid p)) + length (enc_uint (pi_tls_data p)) + length (enc_uint (pi_tls_data_len p)) +
         length (enc_uint (pi_tls_len_total p)) + length (enc_uint (pi_align p)) + length (enc_text (pi_cmdline p)) +
         length (enc_text (pi_app p))))%nat.
Proof.
  unfold enc_body. rewrite !app_length.
  change (length (enc_text (str_bytes "pid"))) with 4%nat. change (length (enc_text (str_bytes "has_tls"))) with 8%nat.
  change (length (enc_text (str_bytes "tls_data"))) with 9%nat. change (length (enc_text (str_bytes "tls_data_len"))) with 13%nat.
  change (length (enc_text (str_bytes "tls_len_total"))) with 14%nat. change (length (enc_text (str_bytes "alignment"))) with 10%nat.
  change (length (enc_text (str_bytes "cmdline"))) with 8%nat. change (length (enc_text (str_bytes "app_cmdline"))) with 12%nat.
  change (length (enc_bool (pi_has_tls p))) with 1%nat. lia.
Qed.
Lemma enc_split p : enc_pinfo p = 168 :: enc_body p.
Proof. done. Qed.
Lemma field_entries p : 
  as_int (field (entries p) "pid") = Some (pi_pid p) /\ as_bool (field (entries p) "has_tls") = Some (pi_has_tls p) /\
  as_int (field (entries p) "tls_data") = Some (pi_tls_data p) /\
  as_int (field (entries p) "tls_data_len") = Some (pi_tls_data_len p) /\
  as_int (field (entries p) "tls_len_total") = Some (pi_tls_len_total p) /\
  as_int (field (entries p) "alignment") = Some (pi_align p) /\
  as_text (field (entries p) "cmdline") = Some (pi_cmdline p) /\ as_text (field (entries p) "app_cmdline") = Some (pi_app p).
Proof. destruct p. repeat (split; [reflexivity|]). reflexivity. Qed.
Lemma dec_enc_pinfo p : pinfo_ok p -> N.of_nat (length (pi_cmdline p)) < 2 ^ 64 -> N.of_nat (length (pi_app p)) < 2 ^ 64 ->
  dec_pinfo (enc_pinfo p) = Some p.
Proof.
  intros Hp Hc Ha. rewrite enc_split. unfold dec_pinfo. change (dec_head (168 :: enc_body p)) with (Some (5, 8, enc_body p)).
  cbn iota. pose proof (body_length p) as Hl. destruct (N.leb_spec 8 (N.of_nat (length (enc_body p)))); [|lia].
  change (N.to_nat 8) with 8%nat. rewrite dec_body by done.
  destruct (field_entries p) as (F1 & F2 & F3 & F4 & F5 & F6 & F7 & F8).
  rewrite F1, F2, F3, F4, F5, F6, F7, F8. cbn. by destruct p.
Qed.
Lemma zeros_dec n : dec_pinfo (replicate n 0) = None.
Proof. destruct n as [|n]; [done|]. cbn [replicate]. done. Qed.

(** * Buffers *)
Lemma resize_data data (buf : list N) : resize (length data) (data ++ drop (length data) buf) = data.
Proof.
  unfold resize. rewrite take_app, app_length.
  replace (length data - (length data + length (drop (length data) buf)))%nat with O by lia. by rewrite app_nil_r.
Qed.
Lemma resize_zeros len n : (n <= len)%nat -> resize len (replicate n 0) = replicate len 0.
Proof.
  intros H. unfold resize. rewrite take_ge by (by rewrite replicate_length). rewrite replicate_length.
  rewrite <- replicate_add. f_equal. lia.
Qed.
Lemma pinfo_buf : length (replicate PINFO_BUF 0) = PINFO_BUF.
Proof. apply replicate_length. Qed.
Lemma pinfo_fits debug p : pinfo_ok p -> N.of_nat (length (enc_pinfo p)) <= 256 -> process_info debug (Ok tt) p = Ok p.
Proof.
  intros Hp Hl. unfold process_info, give. rewrite pinfo_buf.
  destruct (Nat.leb_spec (length (enc_pinfo p)) PINFO_BUF) as [H|H]; [|unfold PINFO_BUF in H; lia].
  assert (length (enc_pinfo p) <=? length (enc_pinfo p ++ drop (length (enc_pinfo p)) (replicate PINFO_BUF 0%N)) = true)%nat as ->.
  { apply Nat.leb_le. rewrite app_length. lia. }
  rewrite andb_false_r. rewrite resize_data. rewrite enc_split in Hl. cbn [length] in Hl.
  pose proof (body_length p) as Hb. rewrite (text_length (pi_cmdline p)), (text_length (pi_app p)) in Hb.
  rewrite dec_enc_pinfo; [done|done|lia|lia].
Qed.
Lemma pinfo_long debug copy p : 256 < N.of_nat (length (enc_pinfo p)) -> process_info debug copy p = Panic.
Proof.
  intros Hl. unfold process_info, give. rewrite pinfo_buf.
  destruct (Nat.leb_spec (length (enc_pinfo p)) PINFO_BUF) as [H|H]; [unfold PINFO_BUF in H; lia|].
  rewrite pinfo_buf. destruct debug; cbn [andb].
  - destruct (Nat.leb_spec (length (enc_pinfo p)) PINFO_BUF); [lia|done].
  - rewrite resize_zeros by lia. by rewrite zeros_dec.
Qed.
Lemma enc_pinfo_bound p : (length (pi_cmdline p) + length (pi_app p) <= 127)%nat -> N.of_nat (length (enc_pinfo p)) <= 256.
Proof.
  intros H. rewrite enc_split. cbn [length]. rewrite body_length, !text_length. unfold enc_uint.
  pose proof (head_length 0 (pi_pid p)). pose proof (head_length 0 (pi_tls_data p)).
  pose proof (head_length 0 (pi_tls_data_len p)). pose proof (head_length 0 (pi_tls_len_total p)).
  pose proof (head_length 0 (pi_align p)).
  pose proof (head_length 3 (N.of_nat (length (pi_cmdline p)))) as [_ G1].
  pose proof (head_length 3 (N.of_nat (length (pi_app p)))) as [_ G2].
  specialize (G1 ltac:(lia)). specialize (G2 ltac:(lia)). lia.
Qed.
Lemma enc_pinfo_long p : (170 <= length (pi_cmdline p) + length (pi_app p))%nat -> 256 < N.of_nat (length (enc_pinfo p)).
Proof.
  intros H. rewrite enc_split. cbn [length]. rewrite body_length, !text_length. unfold enc_uint.
  pose proof (head_length 0 (pi_pid p)). pose proof (head_length 0 (pi_tls_data p)).
  pose proof (head_length 0 (pi_tls_data_len p)). pose proof (head_length 0 (pi_tls_len_total p)).
  pose proof (head_length 0 (pi_align p)).
  pose proof (head_length 3 (N.of_nat (length (pi_cmdline p)))) as [G1 _].
  pose proof (head_length 3 (N.of_nat (length (pi_app p)))) as [G2 _]. lia.
Qed.

(** * Threads *)
Definition cpu_ok (c : cpu) : Prop :=
  h_id c < 2 ^ 64 /\ h_node c < 2 ^ 64 /\ h_package c < 2 ^ 64 /\ h_core c < 2 ^ 64 /\ h_thread c < 2 ^ 64.
Lemma enc_cpu_length c : length (enc_cpu c) = 40%nat.
Proof. unfold enc_cpu. by rewrite !app_length, !le_length. Qed.
Lemma concat_cpu_length l : length (concat (map enc_cpu l)) = (40 * length l)%nat.
Proof. induction l as [|c l IH]; [done|]. cbn [map concat length]. rewrite app_length, enc_cpu_length, IH. lia. Qed.
Lemma enc_cpus_length ptr cap l : length (enc_cpus ptr cap l) = (24 + 40 * length l)%nat.
Proof. unfold enc_cpus. rewrite !app_length, !le_length, concat_cpu_length. lia. Qed.
Lemma word_skip a r i : length a = (8 * i)%nat -> word_at i (a ++ r) = word_at 0 r.
Proof. intros H. unfold word_at. rewrite drop_app_alt by done. by rewrite Nat.mul_0_r, drop_0. Qed.
Lemma word_here n r : n < 2 ^ 64 -> word_at 0 (le 8 n ++ r) = n.
Proof.
  intros H. unfold word_at. rewrite Nat.mul_0_r, drop_0. rewrite take_app_alt by (by rewrite le_length).
  by apply of_le_le.
Qed.
Lemma dec_enc_cpu c r : cpu_ok c -> dec_cpu (enc_cpu c ++ r) = c.
Proof.
  intros (H1 & H2 & H3 & H4 & H5). unfold dec_cpu, enc_cpu. rewrite <- !app_assoc. rewrite word_here by done.
  rewrite word_skip by (by rewrite le_length). rewrite word_here by done.
  rewrite (app_assoc (le 8 (h_id c))), (word_skip (le 8 (h_id c) ++ _)) by (by rewrite app_length, !le_length).
  rewrite word_here by done. rewrite <- app_assoc.
  rewrite (app_assoc (le 8 (h_node c))), (app_assoc (le 8 (h_id c))), (word_skip (le 8 (h_id c) ++ _)) by (by rewrite !app_length, !le_length).
  rewrite word_here by done. rewrite <- !app_assoc.
  rewrite (app_assoc (le 8 (h_package c))), (app_assoc (le 8 (h_node c))), (app_assoc (le 8 (h_id c))), (word_skip (le 8 (h_id c) ++ _))
    by (by rewrite !app_length, !le_length).
  rewrite word_here by done. by destruct c.
Qed.
Lemma dec_cpus_n_enc l : Forall cpu_ok l -> forall r, dec_cpus_n (length l) (concat (map enc_cpu l) ++ r) = l.
Proof.
  induction 1 as [|c l Hc Hl IH]; intros r; [done|]. cbn [length dec_cpus_n map concat]. rewrite <- app_assoc.
  rewrite dec_enc_cpu by done. rewrite drop_app_alt by (by rewrite enc_cpu_length). by rewrite IH.
Qed.
Lemma dec_enc_cpus ptr cap l : Forall cpu_ok l -> N.of_nat (length l) < 2 ^ 64 ->
  dec_cpus (enc_cpus ptr cap l) = Some (l, []).
Proof.
  intros Hl Hn. unfold dec_cpus. rewrite enc_cpus_length.
  destruct (Nat.ltb_spec (24 + 40 * length l) 24); [lia|].
  assert (word_at 2 (enc_cpus ptr cap l) = N.of_nat (length l)) as ->.
  { unfold enc_cpus. rewrite <- !app_assoc, (app_assoc (le 8 ptr)), word_skip by (by rewrite app_length, !le_length).
    by apply word_here. }
  assert (drop 24 (enc_cpus ptr cap l) = concat (map enc_cpu l)) as ->.
  { unfold enc_cpus. apply drop_app_alt. by rewrite !app_length, !le_length. }
  rewrite concat_cpu_length. destruct (N.leb_spec (40 * N.of_nat (length l)) (N.of_nat (40 * length l))); [|lia].
  rewrite Nat2N.id. rewrite <- (app_nil_r (concat (map enc_cpu l))) at 1. rewrite dec_cpus_n_enc by done.
  rewrite drop_ge; [done|]. rewrite concat_cpu_length. lia.
Qed.
Lemma of_le_zeros n : of_le (replicate n 0) = 0.
Proof. induction n as [|n IH]; [done|]. cbn [replicate]. change (of_le (0 :: replicate n 0)) with (0 + 256 * of_le (replicate n 0)). by rewrite IH. Qed.
Lemma zeros_cpus n : (24 < n)%nat -> exists r, dec_cpus (replicate n 0) = Some ([], r) /\ r <> [].
Proof.
  intros H. unfold dec_cpus. rewrite replicate_length. destruct (Nat.ltb_spec n 24); [lia|].
  assert (word_at 2 (replicate n 0) = 0) as ->.
  { unfold word_at. rewrite drop_replicate, take_replicate. apply of_le_zeros. }
  rewrite drop_replicate, replicate_length. destruct (N.leb_spec (40 * 0) (N.of_nat (n - 24))); [|lia].
  exists (replicate (n - 24) 0). split; [done|]. destruct (n - 24)%nat eqn:E; [lia|done].
Qed.
Lemma threads_buf : length (replicate THREADS_BUF 0) = THREADS_BUF.
Proof. apply replicate_length. Qed.
Lemma sys_threads_copied debug data l rest : dec_cpus data = Some (l, []) ->
  (length data <= THREADS_BUF)%nat -> forall call, call (replicate THREADS_BUF 0) = Ok (data ++ drop (length data) rest, length data) ->
  sys_threads debug call = Ok l.
Proof.
  intros Hd Hl call Hc. unfold sys_threads. rewrite Hc.
  assert (length data <=? length (data ++ drop (length data) rest) = true)%nat as ->.
  { apply Nat.leb_le. rewrite app_length. lia. }
  rewrite andb_false_r. by rewrite resize_data, Hd.
Qed.
Lemma native_fits debug mid ptr cap ws : Forall cpu_ok (map (cpu_of mid) ws) -> (length ws <= 511)%nat ->
  threads_native debug (Ok tt) mid ptr cap ws = Ok (map (cpu_of mid) ws).
Proof.
  intros Hok Hl. unfold threads_native.
  assert (length (enc_cpus ptr cap (map (cpu_of mid) ws)) <= THREADS_BUF)%nat as Hb.
  { rewrite enc_cpus_length, map_length. unfold THREADS_BUF. lia. }
  eapply sys_threads_copied; [apply dec_enc_cpus; [done|rewrite map_length; lia]|exact Hb|].
  unfold give. rewrite threads_buf. apply Nat.leb_le in Hb. by rewrite Hb.
Qed.
Lemma native_long debug copy mid ptr cap ws : (512 <= length ws)%nat ->
  threads_native debug copy mid ptr cap ws = if debug then Panic else Err RackscaleRPCError.
Proof.
  intros Hl. unfold threads_native, sys_threads, give. rewrite threads_buf.
  assert (THREADS_BUF < length (enc_cpus ptr cap (map (cpu_of mid) ws)))%nat as Hb.
  { rewrite enc_cpus_length, map_length. unfold THREADS_BUF. lia. }
  destruct (Nat.leb_spec (length (enc_cpus ptr cap (map (cpu_of mid) ws))) THREADS_BUF); [lia|].
  rewrite threads_buf. destruct debug; cbn [andb].
  - destruct (Nat.leb_spec (length (enc_cpus ptr cap (map (cpu_of mid) ws))) THREADS_BUF); [lia|done].
  - rewrite resize_zeros by lia.
    destruct (zeros_cpus (length (enc_cpus ptr cap (map (cpu_of mid) ws)))) as (r & -> & Hr).
    { unfold THREADS_BUF in Hb. lia. }
    by destruct r.
Qed.

(** ** Racks *)
Definition rack_cpus (l : list (N * list hw)) : list cpu := concat (map (fun x => map (cpu_of x.1) x.2) l).
Lemma rack_cpus_length l : length (rack_cpus l) = rack_total l.
Proof.
  unfold rack_cpus, rack_total. induction l as [|[m ws] l IH]; [done|]. cbn [map concat fst snd].
  by rewrite !app_length, map_length, IH.
Qed.
Lemma register_ok l : forall k, NoDup (map fst l) ->
  Forall (fun x => 1 <= x.1 <= 16 /\ (length x.2 <= 192)%nat /\ k_aff k x.1 = []) l ->
  (length (k_all k) + 192 * length l <= N.to_nat (192 * 16))%nat ->
  exists k', register_all k l = Ok k' /\ k_all k' = k_all k ++ rack_cpus l.
Proof.
  induction l as [|[mid ws] l IH]; intros k Hnd Hf Hc.
  - exists k. split; [done|]. by rewrite app_nil_r.
  - cbn [register_all]. apply stdpp.list.Forall_cons in Hf as [(H1 & H2 & H3) Hf]. cbn [fst snd] in H1, H2, H3.
    cbn [map fst] in Hnd. apply stdpp.list.NoDup_cons in Hnd as [Hni Hnd]. cbn [length] in Hc.
    unfold register. rewrite H3. cbn [length]. rewrite map_length.
    destruct (N.eqb_spec mid 0); [lia|]. unfold MAX_MACHINES, MAX_CORES. destruct (N.ltb_spec 16 mid); [lia|]. cbn [orb].
    destruct (N.ltb_spec 192 (N.of_nat (0 + length ws))); [lia|].
    destruct (N.ltb_spec (192 * 16) (N.of_nat (length (k_all k) + length ws))); [lia|].
    edestruct IH as (k' & Hk & Ha); [done| | |exists k'; split; [exact Hk|]].
    + apply stdpp.list.Forall_forall. intros [m w] Hin. rewrite stdpp.list.Forall_forall in Hf.
      destruct (Hf _ Hin) as (G1 & G2 & G3). split; [done|]. split; [done|]. cbn [k_aff fst].
      destruct (N.eqb_spec m mid) as [->|]; [|done]. exfalso. apply Hni. apply elem_of_list_fmap. by exists (mid, w).
    + cbn [k_all]. rewrite app_length, map_length. lia.
    + rewrite Ha. cbn [k_all]. unfold rack_cpus. cbn [map concat fst snd]. by rewrite app_assoc.
Qed.
Lemma machines_bound l : NoDup (map fst l) -> Forall (fun x : N * list hw => 1 <= x.1 <= 16) l -> (length l <= 16)%nat.
Proof.
  intros Hnd Hf. rewrite <- (map_length fst).
  assert (incl (map fst l) (map N.of_nat (seq 1 16))) as Hi.
  { intros m Hm. apply in_map_iff in Hm as ([m' w] & <- & Hin). rewrite stdpp.list.Forall_forall in Hf.
    apply elem_of_list_In in Hin. specialize (Hf _ Hin). cbn [fst] in *. apply in_map_iff. exists (N.to_nat m').
    split; [lia|]. apply in_seq. lia. }
  apply NoDup_ListNoDup in Hnd. apply (NoDup_incl_length Hnd) in Hi. exact Hi.
Qed.
Lemma rack_registers l : rack_ok l -> exists k, register_all ctl_init l = Ok k /\ k_all k = rack_cpus l.
Proof.
  intros [Hnd Hf]. destruct (register_ok l ctl_init Hnd) as (k & Hk & Ha).
  - eapply Forall_impl; [exact Hf|]. cbn beta. intros x (H1 & H2 & _). done.
  - cbn [k_all ctl_init length]. assert (length l <= 16)%nat; [|lia]. apply machines_bound; [done|].
    eapply Forall_impl; [exact Hf|]. cbn beta. intros x (H1 & _). done.
  - exists k. done.
Qed.
Lemma cpu_of_ok mid w : mid < 2 ^ 32 -> hw_ok w -> cpu_ok (cpu_of mid w).
Proof.
  intros Hm (H1 & H2 & H3 & H4 & H5). unfold cpu_ok, cpu_of. cbn [h_id h_node h_package h_core h_thread].
  split; [by apply C33_gtid_round_trip|]. split; [destruct (w_node w); cbn [default]; [done|lia]|done].
Qed.
Lemma rack_cpus_ok l : rack_ok l -> Forall cpu_ok (rack_cpus l).
Proof.
  intros [_ Hf]. unfold rack_cpus. induction Hf as [|[m ws] l (H1 & _ & _ & H4) Hf IH]; [constructor|].
  cbn [map concat fst snd] in *. apply Forall_app_2; [|done]. apply Forall_fmap.
  eapply Forall_impl; [exact H4|]. intros w Hw. apply cpu_of_ok; [lia|done].
Qed.
Lemma rack_fits debug l ptr cap : rack_ok l -> (rack_total l <= 203)%nat ->
  exists k, register_all ctl_init l = Ok k /\ threads_rack debug (Ok tt) k ptr cap = Ok (rack_cpus l).
Proof.
  intros Hr Ht. destruct (rack_registers l Hr) as (k & Hk & Ha). exists k. split; [done|].
  unfold threads_rack, handle_threads. rewrite Ha, rack_cpus_length. unfold KRES, SRV_BUF.
  destruct (N.leb_spec (24 + 40 * N.of_nat (rack_total l) + 24) 8192); [|lia].
  assert (length (enc_cpus ptr cap (rack_cpus l)) <= THREADS_BUF)%nat as Hb.
  { rewrite enc_cpus_length, rack_cpus_length. unfold THREADS_BUF. lia. }
  eapply sys_threads_copied; [apply dec_enc_cpus; [by apply rack_cpus_ok|rewrite rack_cpus_length; lia]|exact Hb|].
  unfold client_threads. rewrite threads_buf. apply Nat.leb_le in Hb. by rewrite Hb.
Qed.
Lemma rack_long debug copy l ptr cap : rack_ok l -> (204 <= rack_total l)%nat ->
  exists k, register_all ctl_init l = Ok k /\ threads_rack debug copy k ptr cap = Panic.
Proof.
  intros Hr Ht. destruct (rack_registers l Hr) as (k & Hk & Ha). exists k. split; [done|].
  unfold threads_rack, handle_threads. rewrite Ha, rack_cpus_length. unfold KRES, SRV_BUF.
  destruct (N.leb_spec (24 + 40 * N.of_nat (rack_total l) + 24) 8192); [lia|done].
Qed.

(** What the entries mean. *)
Lemma cpu_describes mid w : mid < 2 ^ 32 -> hw_ok w -> describes mid w (cpu_of mid w).
Proof.
  intros Hm (H1 & _). destruct (C33_gtid_round_trip (w_id w) mid H1 Hm) as (E1 & E2 & _).
  unfold describes, cpu_of. cbn [h_id h_node h_package h_core h_thread]. rewrite E1, E2.
  destruct (w_node w); done.
Qed.
Lemma native_describes mid ws : mid < 2 ^ 32 -> Forall hw_ok ws -> Forall2 (describes mid) ws (map (cpu_of mid) ws).
Proof. intros Hm. induction 1 as [|w ws Hw Hws IH]; cbn [map]; [constructor|]. constructor; [by apply cpu_describes|done]. Qed.
Lemma rack_describes l : rack_ok l -> Forall2 (fun x c => describes x.1 x.2 c) (rack_list l) (rack_cpus l).
Proof.
  intros [_ Hf]. unfold rack_list, rack_cpus. induction Hf as [|[m ws] l (H1 & _ & _ & H4) Hf IH]; [constructor|].
  cbn [map concat fst snd] in *. apply Forall2_app; [|done]. clear - H1 H4.
  induction H4 as [|w ws Hw Hws IH]; cbn [map]; [constructor|]. constructor; [|done]. apply cpu_describes; [lia|done].
Qed.
Lemma ids_distinct mid ws : mid < 2 ^ 32 -> Forall hw_ok ws -> NoDup (map w_id ws) -> NoDup (map h_id (map (cpu_of mid) ws)).
Proof.
  intros Hm Hf. induction Hf as [|w ws Hw Hf IH]; cbn [map]; intros Hnd; [constructor|].
  apply stdpp.list.NoDup_cons in Hnd as [Hni Hnd]. apply stdpp.list.NoDup_cons. split; [|by apply IH].
  intros Hin. apply Hni. apply elem_of_list_fmap in Hin as (c & Hc & Hin). apply elem_of_list_fmap in Hin as (v & -> & Hin).
  apply elem_of_list_fmap. exists v. split; [|done]. rewrite stdpp.list.Forall_forall in Hf.
  cbn [cpu_of h_id] in Hc. apply C33_gtid_injective in Hc as [Hc _]; [done|apply Hw|done|by apply Hf|done].
Qed.
Lemma rack_ids_distinct l : rack_ok l -> NoDup (map h_id (rack_cpus l)).
Proof.
  intros [Hnd Hf]. unfold rack_cpus. induction Hf as [|[m ws] l (H1 & _ & H3 & H4) Hf IH]; cbn [map concat fst snd] in *; [constructor|].
  apply stdpp.list.NoDup_cons in Hnd as [Hni Hnd]. rewrite map_app. apply NoDup_app. split; [apply ids_distinct; [lia|done|done]|].
  split; [|by apply IH]. intros i Hi Hj.
  apply elem_of_list_fmap in Hi as (c & -> & Hi). apply elem_of_list_fmap in Hi as (w & -> & Hi).
  apply elem_of_list_fmap in Hj as (c' & Hc' & Hj). apply elem_of_list_In, in_concat in Hj as (x & Hx & Hj).
  apply in_map_iff in Hx as ([m' ws'] & <- & Hx). cbn [fst snd] in *. apply in_map_iff in Hj as (w' & <- & Hj).
  rewrite stdpp.list.Forall_forall in Hf. apply elem_of_list_In in Hx. destruct (Hf _ Hx) as (G1 & _ & _ & G4). cbn [fst snd] in *.
  rewrite stdpp.list.Forall_forall in H4, G4. apply elem_of_list_In in Hj. specialize (H4 w Hi). specialize (G4 w' Hj).
  cbn [cpu_of h_id] in Hc'. apply C33_gtid_injective in Hc' as [_ Hc'].
  - subst m'. apply Hni. apply elem_of_list_fmap. by exists (m, ws').
  - apply H4.
  - lia.
  - apply G4.
  - lia.
Qed.
