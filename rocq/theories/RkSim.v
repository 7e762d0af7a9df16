(** The simulation behind RkProps: rack and specification step together. *)
From Verif Require Import Base FileModel RpcModel RpcSpec RpcProofs RpcProps FsModel RkModel RkSpec RkProofs.
From stdpp Require Import functions.

Local Opaque le64 str_bytes RW_SHMEM_BUF_LEN MAX_FILES_PER_PROCESS BASE_PAGE_SIZE.

(** ** Shared memory *)

Lemma mem_write_other m a d b : (b < a \/ a + N.of_nat (length d) <= b)%N -> mem_write m a d b = m b.
Proof.
  revert a. induction d as [|x d IH]; intros a H; [done|]. cbn [mem_write length] in *.
  destruct (N.eqb_spec b a); [lia|]. apply IH. lia.
Qed.
Lemma mem_read_write m a d : mem_read (mem_write m a d) a (length d) = d.
Proof.
  assert (G : forall k m' b, (forall i, (b <= i)%N -> m' i = mem_write m a d i) ->
    mem_read m' b k = mem_read (mem_write m a d) b k).
  { induction k as [|k IH]; intros m' b H; [done|]. cbn [mem_read]. f_equal; [apply H; lia|].
    apply IH. intros i Hi. apply H. lia. }
  clear G. revert a. induction d as [|x d IH]; intros a; [done|]. cbn [length mem_read mem_write].
  rewrite N.eqb_refl. f_equal. rewrite <-(IH (a + 1)%N) at 2.
  assert (G : forall k b, (a < b)%N -> mem_read (fun c => if (c =? a)%N then x else mem_write m (a + 1) d c) b k =
    mem_read (mem_write m (a + 1) d) b k).
  { induction k as [|k IHk]; intros b H; [done|]. cbn [mem_read]. destruct (N.eqb_spec b a); [lia|].
    f_equal. apply IHk. lia. }
  apply G. lia.
Qed.
Lemma mem_read_ext m m' a k : (forall b, (a <= b < a + N.of_nat k)%N -> m' b = m b) -> mem_read m' a k = mem_read m a k.
Proof.
  revert a. induction k as [|k IH]; intros a H; [done|]. cbn [mem_read]. f_equal; [apply H; lia|].
  apply IH. intros b Hb. apply H. lia.
Qed.

(** ** The invariant *)

Definition handlers0 : gmap N (handler rack) := sv_handlers (controller (mkRack node_init [] (fun _ => 0%N))).

Definition res_fits (fc : fcall) (r : fres) : Prop :=
  kres_typed r.1 /\ (N.of_nat (length r.2) <= 8192)%N /\
  match fc, r.1 with
  | CRead _ _ len _, inl (a, _) => N.to_nat a = length r.2 /\ length r.2 <= len
  | _, _ => r.2 = []
  end.

Definition cl_inv (mem : N -> N) (dead : bool) (c : rkclient) (s : cstat) : Prop :=
  let 'mkRsys c2s s2c cl hdr srv yd := c_sys c in
  yd = false /\ sv_handlers srv = handlers0 /\ N.of_nat (length (sv_data srv)) = 8192%N /\ (r_id hdr < 256)%N /\
  match s with
  | CsIdle => c2s = [] /\ s2c = [] /\ cl = ClIdle /\ c_pend c = None
  | CsPend fc => c_pend c = Some fc /\ cl = ClWait [replicate KRES_SIZE 0%N] /\ s2c = [] /\
      well_typed fc /\ transferable fc /\
      exists id din, stub (c_buf c) fc = Some (id, din) /\
        (c2s = [hdr_bytes (mkHdr (r_id hdr) id (N.of_nat (length (concat din)))) ++ concat din] \/
         dead = true /\ c2s = [])
  | CsDone r => c2s = [] /\ cl = ClWait [replicate KRES_SIZE 0%N] /\
      exists fc h, c_pend c = Some fc /\ (r_id h < 256 /\ r_type h < 256 /\ r_len h < 65536)%N /\
        s2c = [hdr_bytes h ++ enc_kres r.1] /\ res_fits fc r /\
        mem_read mem (c_buf c) (length r.2) = r.2
  | CsBad => False
  | CsDead => c2s = [] /\ cl = ClDead
  end.

Definition rk_inv (bufs : list N) (g : rk) (l : lstate) : Prop :=
  let '(n, av, f, d) := l in
  k_node (g_st g) = n /\ k_av (g_st g) = av /\ g_dead g = d /\ map c_buf (g_cl g) = bufs /\
  forall i c, g_cl g !! i = Some c -> cl_inv (k_mem (g_st g)) d c (f i).

Lemma rk_init_inv st bufs :
  rk_inv bufs (rk_init st bufs) (k_node st, k_av st, fun _ => CsIdle, false).
Proof.
  unfold rk_init, rk_inv. cbn [g_st g_dead g_cl]. split; [done|]. split; [done|]. split; [done|].
  split; [rewrite map_map; apply map_id|]. intros i c H.
  change (map ?f bufs) with (f <$> bufs) in H.
  apply list_lookup_fmap_inv in H as (p & -> & _). unfold cl_inv. cbn [c_sys rsys_init c_pend].
  split; [done|]. split; [apply controller_same|]. split; [|done]. reflexivity.
Qed.

(** The result of a call that fits. *)
Lemma local_res_fits av n fc r n' : transferable fc -> local_call av n fc = (Some r, n') -> res_fits fc r.
Proof.
  intros T. unfold local_call. destruct (step av n (req_of fc)) as [o n1] eqn:E.
  destruct (kres_of o) as [k|] eqn:K; [|done]. intros [= <- <-]. unfold res_fits. cbn [fst snd].
  pose proof (kres_of_typed _ _ _ _ _ _ E K) as KT. split; [exact KT|].
  assert (NR : (forall pid fd len off, fc <> CRead pid fd len off) -> (N.of_nat (length (bytes_read o)) <= 8192)%N /\
    bytes_read o = []).
  { intros H. rewrite (step_no_data _ _ _ _ _ E H). split; [cbn; lia|done]. }
  destruct fc as [pid path fl md|pid fd len off|pid fd d off|pid fd|pid path|pid path|pid old new|pid path md].
  2: { cbn [req_of] in E. cbn [transferable] in T. destruct o as [x|e|]; [| |done].
    - destruct (step_read_kind _ _ _ _ _ _ _ _ E) as (k1 & d & ->).
      destruct (read_count _ _ _ _ _ _ _ _ _ E) as [C1 C2]. cbn [kres_of] in K. injection K as <-.
      cbn [bytes_read]. rewrite take_length, Nat.min_l by lia. split; [lia|]. cbn. split; [|lia].
      rewrite N.mod_small; [lia|]. unfold U64. change (2 ^ 64)%N with 18446744073709551616%N. lia.
    - cbn [kres_of] in K. injection K as <-. cbn. split; [lia|done]. }
  all: destruct NR as [N1 N2]; [intros; discriminate|]; split; [exact N1|]; rewrite N2; by destruct k.
Qed.

Lemma mem_keep bufs mem i j p q (d e : list N) : disjoint_buffers bufs -> i <> j ->
  bufs !! i = Some p -> bufs !! j = Some q -> (N.of_nat (length d) <= 8192)%N -> (N.of_nat (length e) <= 8192)%N ->
  mem_read mem q (length e) = e -> mem_read (mem_write mem p d) q (length e) = e.
Proof.
  intros [_ D] NE Hi Hj Ld Le H. rewrite <-H at 2. apply mem_read_ext. intros b Hb.
  apply mem_write_other. specialize (D i j p q NE Hi Hj). lia.
Qed.

Lemma cl_inv_mem mem mem' dead dead' c s :
  (forall d, (N.of_nat (length d) <= 8192)%N -> mem_read mem (c_buf c) (length d) = d ->
     mem_read mem' (c_buf c) (length d) = d) ->
  (dead = true -> dead' = true) -> cl_inv mem dead c s -> cl_inv mem' dead' c s.
Proof.
  intros HM HD. unfold cl_inv. destruct (c_sys c) as [c2s s2c cl hdr srv yd].
  intros (I1 & I2 & I3 & I4 & I5). split; [done|]. split; [done|]. split; [done|]. split; [done|].
  destruct s as [|fc|r| |]; try exact I5.
  - destruct I5 as (J1 & J2 & J3 & J4 & J5 & id & din & J6 & J7). split; [done|]. split; [done|]. split; [done|].
    split; [done|]. split; [done|]. exists id, din. split; [done|]. destruct J7 as [J7|[J7 J8]]; [by left|right]. auto.
  - destruct I5 as (J1 & J2 & fc & h & J3 & J4 & J5 & J6 & J7). split; [done|]. split; [done|].
    exists fc, h. split; [done|]. split; [done|]. split; [done|]. split; [done|]. apply HM; [apply J6|done].
Qed.

Lemma map_buf_insert (l : list rkclient) i c c' : l !! i = Some c -> c_buf c' = c_buf c ->
  map c_buf (<[i := c']> l) = map c_buf l.
Proof.
  intros H E. change (map c_buf ?x) with (c_buf <$> x). rewrite list_fmap_insert, E.
  apply list_insert_id. by rewrite list_lookup_fmap, H.
Qed.

(** Changing one client and no memory. *)
Lemma rk_inv_one bufs g n av f d i c c' s f' : rk_inv bufs g (n, av, f, d) -> g_cl g !! i = Some c ->
  c_buf c' = c_buf c -> cl_inv (k_mem (g_st g)) d c' s -> f' i = s -> (forall j, j <> i -> f' j = f j) ->
  rk_inv bufs (set_client g (g_st g) i c' (g_dead g)) (n, av, f', d).
Proof.
  intros (I1 & I2 & I3 & I4 & I5) Hc Hb Hs Hf Hf'. unfold rk_inv, set_client. cbn [g_st g_cl g_dead].
  split; [done|]. split; [done|]. split; [done|]. split; [by rewrite (map_buf_insert _ _ c)|].
  intros j cj Hj. destruct (decide (j = i)) as [->|NE].
  - rewrite list_lookup_insert in Hj by eauto using lookup_lt_Some. injection Hj as <-. by rewrite Hf.
  - rewrite list_lookup_insert_ne in Hj by done. rewrite Hf' by done. by apply I5.
Qed.

Lemma L1 a e b : l_step a e b -> l_steps a [e] b.
Proof. intros. eapply LS_cons; [done|apply LS_nil]. Qed.

(** ** Calls *)

Lemma stub_none ptr c : stub ptr c = None -> ~ transferable c.
Proof.
  destruct c; cbn [stub]; try discriminate. destruct (decide _) as [D|D]; [discriminate|]. intros _ T.
  apply D. cbn [transferable] in T. Local Transparent RW_SHMEM_BUF_LEN. unfold RW_SHMEM_BUF_LEN. Local Opaque RW_SHMEM_BUF_LEN. lia.
Qed.
Lemma stub_big ptr c id din : stub ptr c = Some (id, din) -> ~ transferable c -> ~ fits din.
Proof.
  intros H T [F1 F2]. apply T.
  destruct c as [pid path fl md|pid fd len off|pid fd d off|pid fd|pid path|pid path|pid old new|pid path md];
    cbn [stub] in H; cbn [transferable]; unfold str_len; rewrite <-?str_bytes_length; [| |..].
  2: { destruct (decide _) as [D|D]; [|discriminate H]. revert D.
       Local Transparent RW_SHMEM_BUF_LEN. unfold RW_SHMEM_BUF_LEN. Local Opaque RW_SHMEM_BUF_LEN. clear. lia. }
  all: injection H as <- <-; cbn [concat length app] in F2; rewrite ?app_nil_r, ?app_length, ?le64_length in F2.
  all: first [exact I|clear -F2; lia].
Qed.

Lemma cl_inv_dead mem d y b : y_cl y = ClDead -> y_c2s y = [] -> y_dead y = false -> (r_id (y_hdr y) < 256)%N ->
  sv_handlers (y_srv y) = handlers0 -> N.of_nat (length (sv_data (y_srv y))) = 8192%N ->
  cl_inv mem d (mkCl y None b) CsDead.
Proof.
  intros Y1 Y2 Y3 Y4 Y5 Y6. unfold cl_inv. cbn [c_sys]. destruct y as [c2s s2c cl hdr srv yd].
  cbn [y_cl y_c2s y_dead y_hdr y_srv] in *. tauto.
Qed.

Lemma transferable_dec c : transferable c \/ ~ transferable c.
Proof. destruct c; cbn [transferable]; try (by left); match goal with |- ?P \/ _ => destruct (decide P); auto end. Qed.

Lemma client_send_fits hdr id din : fits din ->
  client_send [] hdr id din =
  ROkay ([hdr_bytes (mkHdr (r_id hdr) id (N.of_nat (length (concat din)))) ++ concat din],
         mkHdr (r_id hdr) id (N.of_nat (length (concat din)))).
Proof.
  intros F. unfold client_send. rewrite total_len_concat.
  destruct (N.ltb_spec (N.of_nat (length (concat din))) 65535) as [L|L].
  2: { destruct F as [_ F]. exfalso. clear -L F. lia. }
  replace (as_u16 (length (concat din))) with (N.of_nat (length (concat din))).
  - by rewrite chan_send_ok.
  - unfold as_u16. rewrite N.mod_small; [done|lia].
Qed.
Lemma client_send_big hdr id din : ~ fits din -> client_send [] hdr id din = RPanic.
Proof.
  intros F. unfold client_send. destruct (N.ltb _ _); [|done]. by rewrite chan_send_bad.
Qed.

Lemma sim_call bufs g n av f d i fc g' es : rk_inv bufs g (n, av, f, d) -> well_typed fc ->
  g_step g (GCall i fc) = Some (g', es) ->
  exists l', l_steps (n, av, f, d) es l' /\ rk_inv bufs g' l'.
Proof.
  intros I WT E. cbn [g_step] in E. destruct (g_cl g !! i) as [c|] eqn:Hc; [|discriminate E].
  pose proof I as (_ & _ & _ & _ & Ic). specialize (Ic i c Hc). unfold cl_inv in Ic.
  destruct (c_sys c) as [c2s s2c cl hdr srv yd] eqn:Ey. cbn [y_cl] in E.
  destruct Ic as (Id & IH & ID & IR & Is). subst yd. destruct cl; try discriminate E.
  destruct (f i) as [|fc0|r0| |] eqn:Fi.
  2: { destruct Is as (_ & Is & _). discriminate Is. }
  2: { destruct Is as (_ & Is & _). discriminate Is. }
  2: { destruct Is. }
  2: { destruct Is as (_ & Is). discriminate Is. }
  destruct Is as (I1 & I2 & _ & Ip). subst c2s s2c.
  assert (BAD : ~ transferable fc -> forall c', c_buf c' = c_buf c -> cl_inv (k_mem (g_st g)) d c' CsDead ->
    exists l', l_steps (n, av, f, d) [GvCall i fc; GvPanic i] l' /\
      rk_inv bufs (set_client g (g_st g) i c' (g_dead g)) l').
  { intros NT c' Hb Hs. eexists. split.
    - eapply LS_cons; [by apply L_call_large|]. apply L1. apply L_panic. by rewrite fn_lookup_insert.
    - eapply rk_inv_one; [exact I|exact Hc|exact Hb|exact Hs|by rewrite fn_lookup_insert|].
      intros j NE. by rewrite !fn_lookup_insert_ne. }
  destruct (stub (c_buf c) fc) as [[id din]|] eqn:Hst.
  2: { apply stub_none in Hst. injection E as <- <-. apply BAD; [exact Hst|reflexivity|]. by apply cl_inv_dead. }
  cbn [with_st y_step y_c2s y_s2c y_cl y_hdr y_srv y_dead] in E.
  destruct (transferable_dec fc) as [T|NT].
  - destruct (stub_din _ _ _ _ Hst T) as [F Hid]. rewrite (client_send_fits hdr id din F) in E.
    injection E as <- <-. eexists. split; [apply L1, L_call; done|].
    eapply rk_inv_one; [exact I|exact Hc|reflexivity| |by rewrite fn_lookup_insert|].
    2: { intros j NE. by rewrite fn_lookup_insert_ne. }
    unfold cl_inv. cbn [c_sys c_pend c_buf]. cbn [sv_handlers sv_data r_id].
    split; [reflexivity|]. split; [exact IH|]. split; [exact ID|]. split; [exact IR|].
    split; [reflexivity|]. split; [reflexivity|]. split; [reflexivity|]. split; [exact WT|]. split; [exact T|].
    exists id, din. split; [exact Hst|]. left. reflexivity.
  - pose proof (stub_big _ _ _ _ Hst NT) as F. rewrite (client_send_big hdr id din F) in E.
    injection E as <- <-. apply BAD; [exact NT|reflexivity|]. by apply cl_inv_dead.
Qed.

(** ** Requests *)

Lemma sim_serve bufs g n av f d i g' es : disjoint_buffers bufs -> rk_inv bufs g (n, av, f, d) ->
  g_step g (GServe i) = Some (g', es) ->
  exists l', l_steps (n, av, f, d) es l' /\ rk_inv bufs g' l'.
Proof.
  intros DB I E. cbn [g_step] in E. destruct (g_cl g !! i) as [c|] eqn:Hc; [|discriminate E].
  pose proof I as (In & Ia & Idd & Ib & Ic). pose proof (Ic i c Hc) as Ii. unfold cl_inv in Ii.
  destruct (g_dead g) eqn:Gd; [discriminate E|]. subst d.
  destruct (c_sys c) as [c2s s2c cl hdr srv yd] eqn:Ey.
  destruct Ii as (Id & IH & ID & IR & Is). subst yd.
  cbn [with_st y_step y_c2s y_s2c y_cl y_hdr y_srv y_dead] in E.
  destruct srv as [sst stb shd sda]. cbn [sv_handlers sv_hdr sv_data sv_st] in *.
  assert (QUIET : c2s = [] -> exists l', l_steps (n, av, f, false) es l' /\ rk_inv bufs g' l').
  { intros ->. unfold server_try_handle in E. rewrite handle_none in E. cbn [y_srv sv_st] in E.
    injection E as <- <-. exists (n, av, f, false). split; [apply LS_nil|].
    assert (X := rk_inv_one bufs g n av f false i c (mkCl (mkRsys [] s2c cl hdr (mkServer (g_st g) stb shd sda) false) (c_pend c) (c_buf c)) (f i) f I Hc eq_refl).
    rewrite Gd in X. apply X; [|reflexivity|intros; reflexivity].
    specialize (Ic i c Hc). unfold cl_inv in *. rewrite Ey in Ic. cbn [c_sys c_pend c_buf sv_handlers sv_data] in *. exact Ic. }
  destruct (f i) as [|fc|r0| |] eqn:Fi.
  1: by apply QUIET, Is.
  2: by apply QUIET, Is.
  2: destruct Is.
  2: by apply QUIET, Is.
  destruct Is as (P1 & P2 & P3 & P4 & P5 & id & din & P6 & [P7|[P7 _]]); [|discriminate P7].
  destruct (stub_din _ _ _ _ P6 P5) as [F Hid].
  destruct (handle_spec handlers0 (mkServer (g_st g) stb shd sda) (r_id hdr) id din) as (buf & RQ & SH);
    [exact IH|exact ID|intros k f0 Hk; exact (file_handlers_typed k f0 (mkRack node_init [] (fun _ => 0%N)) Hk)|exact F|exact Hid|exact IR|].
  set (h := mkHdr (r_id hdr) id (N.of_nat (length (concat din)))) in *.
  assert (Hbi : bufs !! i = Some (c_buf c)).
  { rewrite <-Ib. change (map c_buf ?x) with (c_buf <$> x). by rewrite list_lookup_fmap, Hc. }
  assert (HP : (c_buf c < U64)%N). { destruct DB as [DB _]. specialize (DB i _ Hbi). clear -DB. lia. }
  destruct (handler_correct (mkRack node_init [] (fun _ => 0%N)) (c_buf c) fc id din (g_st g) h buf P6 P4 P5 HP RQ)
    as (hd1 & HL & HE).
  unfold handlers0 in SH at 1. rewrite HL in SH. cbn [sv_st] in SH. rewrite HE in SH. unfold effect in SH.
  rewrite In, Ia in SH. subst c2s s2c. unfold server_try_handle in E. rewrite SH in E.
  destruct (local_call (hd 0 av) n fc) as [[r|] n'] eqn:LC.
  - unfold answer in E. cbn [r_len] in E.
    destruct (N.leb_spec (4 + N.of_nat KRES_SIZE) 8192) as [LL|LL]; [|unfold KRES_SIZE in LL; lia]. clear LL.
    rewrite Nat2N.id in E. rewrite take_app_alt in E by (by rewrite enc_kres_length).
    cbn [y_srv sv_st] in E. injection E as <- <-.
    exists (n', tl av, <[i := CsDone r]> f, false). split; [apply L1; by eapply L_effect|].
    pose proof (local_res_fits _ _ _ _ _ P5 LC) as RF.
    unfold rk_inv, set_client. cbn [g_st g_cl g_dead k_node k_av k_mem].
    split; [reflexivity|]. split; [reflexivity|]. split; [reflexivity|]. split; [by rewrite (map_buf_insert _ _ c)|].
    intros j cj Hj. destruct (decide (j = i)) as [->|NE].
    + rewrite list_lookup_insert in Hj by eauto using lookup_lt_Some. injection Hj as <-. rewrite fn_lookup_insert.
      unfold cl_inv. cbn [c_sys c_pend c_buf sv_handlers sv_data].
      split; [reflexivity|]. split; [reflexivity|]. split.
      { rewrite app_length, drop_length, enc_kres_length. destruct RQ as (_ & _ & RQ & _). unfold KRES_SIZE. clear -RQ. lia. }
      split; [exact IR|]. split; [reflexivity|]. split; [exact P2|].
      exists fc, (mkHdr (r_id h mod 256) (r_type h mod 256) (N.of_nat KRES_SIZE)). split; [exact P1|]. split; [|split; [reflexivity|]].
      { cbn [r_id r_type r_len]. unfold KRES_SIZE. split; [apply N.mod_lt; lia|]. split; [apply N.mod_lt; lia|lia]. }
      split; [exact RF|]. apply mem_read_write.
    + rewrite list_lookup_insert_ne in Hj by done. rewrite fn_lookup_insert_ne by done.
      eapply cl_inv_mem; [|intros X; exact X|by apply Ic]. intros e Le He.
      assert (Hbj : bufs !! j = Some (c_buf cj)).
      { rewrite <-Ib. change (map c_buf ?x) with (c_buf <$> x). by rewrite list_lookup_fmap, Hj. }
      eapply (mem_keep bufs _ i j); [exact DB|congruence|exact Hbi|exact Hbj|apply RF|exact Le|exact He].
  - cbn [y_srv sv_st] in E. injection E as <- <-.
    exists (n', tl av, f, true). split; [apply L1; by eapply L_crash|].
    unfold rk_inv, set_client. cbn [g_st g_cl g_dead k_node k_av k_mem].
    split; [reflexivity|]. split; [reflexivity|]. split; [reflexivity|]. split; [by rewrite (map_buf_insert _ _ c)|].
    intros j cj Hj. destruct (decide (j = i)) as [->|NE].
    + rewrite list_lookup_insert in Hj by eauto using lookup_lt_Some. injection Hj as <-. rewrite Fi.
      unfold cl_inv. cbn [c_sys c_pend c_buf sv_handlers sv_data].
      split; [reflexivity|]. split; [reflexivity|]. split; [apply RQ|]. split; [exact IR|].
      split; [exact P1|]. split; [exact P2|]. split; [reflexivity|]. split; [exact P4|]. split; [exact P5|].
      exists id, din. split; [exact P6|]. right. split; reflexivity.
    + rewrite list_lookup_insert_ne in Hj by done.
      apply (cl_inv_mem (k_mem (g_st g)) _ false); [intros e _ X; exact X|intros _; reflexivity|by apply Ic].
Qed.

(** ** Replies *)

Lemma finish_fits mem ptr fc r : res_fits fc r -> mem_read mem ptr (length r.2) = r.2 ->
  finish mem ptr fc (enc_kres r.1) = Some r.
Proof.
  intros (R1 & R2 & R3) R4. unfold finish. rewrite dec_enc_kres by exact R1. destruct r as [[[a b]|e] d]; cbn [fst snd] in *.
  - destruct fc; try (by rewrite R3). destruct R3 as [R3 R5]. rewrite R3. rewrite decide_True; [by rewrite R4|].
    split; [exact R5|]. Local Transparent RW_SHMEM_BUF_LEN. unfold RW_SHMEM_BUF_LEN. Local Opaque RW_SHMEM_BUF_LEN. lia.
  - destruct fc; by rewrite R3.
Qed.

Lemma sim_recv bufs g n av f d i g' es : rk_inv bufs g (n, av, f, d) ->
  g_step g (GRecv i) = Some (g', es) ->
  exists l', l_steps (n, av, f, d) es l' /\ rk_inv bufs g' l'.
Proof.
  intros I E. cbn [g_step] in E. destruct (g_cl g !! i) as [c|] eqn:Hc; [|discriminate E].
  pose proof I as (_ & _ & _ & _ & Ic). pose proof (Ic i c Hc) as Ii. unfold cl_inv in Ii.
  destruct (c_sys c) as [c2s s2c cl hdr srv yd] eqn:Ey.
  destruct Ii as (Id & IH & ID & IR & Is). subst yd.
  destruct (f i) as [|fc|r0| |] eqn:Fi.
  - destruct Is as (_ & _ & _ & Ip). rewrite Ip in E. discriminate E.
  - destruct Is as (P1 & P2 & P3 & _). subst cl s2c. rewrite P1 in E.
    cbn [with_st y_step y_c2s y_s2c y_cl y_hdr y_srv y_dead] in E. unfold client_recv in E.
    rewrite recv_none in E by (cbn; lia). discriminate E.
  - destruct Is as (P1 & P2 & fc & h & P3 & P4 & P5 & P6 & P7). subst cl s2c c2s. rewrite P3 in E.
    cbn [with_st y_step y_c2s y_s2c y_cl y_hdr y_srv y_dead] in E. unfold client_recv in E.
    rewrite recv_ok in E.
    2: apply hdr_len.
    2: cbn [length]; lia.
    2: { cbn [concat]. rewrite app_nil_r, replicate_length, enc_kres_length. lia. }
    cbn [fill] in E. rewrite replicate_length, take_ge, drop_ge, app_nil_r in E.
    2-3: rewrite ?replicate_length, enc_kres_length; lia.
    rewrite finish_fits in E by auto. injection E as <- <-.
    eexists. split; [apply L1, L_return; exact Fi|].
    eapply rk_inv_one; [exact I|exact Hc|reflexivity| |by rewrite fn_lookup_insert|].
    2: { intros j NE. by rewrite fn_lookup_insert_ne. }
    unfold cl_inv. cbn [c_sys c_pend c_buf sv_handlers sv_data].
    split; [reflexivity|]. split; [exact IH|]. split; [exact ID|]. split.
    { rewrite hdr_roundtrip; apply P4. }
    split; [reflexivity|]. split; [reflexivity|]. split; reflexivity.
  - destruct Is.
  - destruct Is as (-> & ->). destruct (c_pend c); discriminate E.
Qed.

(** ** Processes *)

Lemma add_process_no_panic av n pid : (step av n (RAddProcess pid)).1 <> Panic.
Proof. cbn [step]. unfold dispatch_mut. repeat case_match; cbn; congruence. Qed.

Lemma sim_add bufs g n av f d pid g' es : rk_inv bufs g (n, av, f, d) ->
  g_step g (GAddProcess pid) = Some (g', es) ->
  exists l', l_steps (n, av, f, d) es l' /\ rk_inv bufs g' l'.
Proof.
  intros I E. cbn [g_step] in E. destruct (g_dead g) eqn:Gd; [discriminate E|].
  destruct I as (I1 & I2 & I3 & I4 & I5). assert (d = false) as -> by congruence.
  unfold fs_call in E. rewrite I1, I2 in E.
  destruct (step (hd 0 av) n (RAddProcess pid)) as [[x|e|] n'] eqn:S.
  - injection E as <- <-. eexists. split; [apply L1; by eapply L_add|].
    unfold rk_inv. cbn [g_st g_cl g_dead k_node k_av k_mem]. auto.
  - injection E as <- <-. eexists. split; [apply L1; by eapply L_add_twice|].
    unfold rk_inv. cbn [g_st g_cl g_dead k_node k_av k_mem]. split; [done|]. split; [done|]. split; [done|]. split; [done|].
    intros j cj Hj. apply (cl_inv_mem (k_mem (g_st g)) _ false); [intros e' _ X; exact X|intros _; reflexivity|by apply I5].
  - exfalso. apply (add_process_no_panic (hd 0 av) n pid). by rewrite S.
Qed.

Lemma l_steps_app a es b es' c : l_steps a es b -> l_steps b es' c -> l_steps a (es ++ es') c.
Proof. induction 1; [done|]. intros H'. cbn. eapply LS_cons; eauto. Qed.

Lemma sim_run bufs l : forall g l0 g' es, disjoint_buffers bufs -> rk_inv bufs g l0 -> Forall call_typed l ->
  g_run g l = Some (g', es) -> exists l', l_steps l0 es l' /\ rk_inv bufs g' l'.
Proof.
  induction l as [|a l IH]; intros g [[[n av] f] d] g' es DB I HT E; cbn [g_run] in E.
  - injection E as <- <-. eexists. split; [apply LS_nil|exact I].
  - destruct (g_step g a) as [[g1 e1]|] eqn:E1; [|discriminate E].
    destruct (g_run g1 l) as [[g2 e2]|] eqn:E2; [|discriminate E]. injection E as <- <-.
    apply Forall_cons_1 in HT as [HT1 HT2].
    assert (exists l', l_steps (n, av, f, d) e1 l' /\ rk_inv bufs g1 l') as (l1 & S1 & I1).
    { destruct a as [i fc|i|i|pid].
      - eapply sim_call; [exact I|exact HT1|exact E1].
      - eapply sim_serve; [exact DB|exact I|exact E1].
      - eapply sim_recv; [exact I|exact E1].
      - eapply sim_add; [exact I|exact E1]. }
    destruct (IH _ _ _ _ DB I1 HT2 E2) as (l2 & S2 & I2). exists l2. split; [|exact I2]. by eapply l_steps_app.
Qed.
