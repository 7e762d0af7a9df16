(** Model of how a program learns about itself and the machine: Process::process_info and System::threads of the
    user library (lib/kpi/src/syscalls/process.rs:99-121, system.rs:19-51), the system calls behind them
    (kernel/src/arch/x86_64/syscall.rs:62-102, :151-177), and on a rack the controller's list of hardware threads
    (rackscale/registration.rs, controller_state.rs, systemops/get_hardware_threads.rs).
    A buffer is the list of its bytes.  Simplifications: serde_cbor and abomonation are modelled for the types that
    are sent, on a little-endian machine; strings are their bytes, valid UTF-8 by their type; the system call itself
    succeeds or fails at copying to the program's buffer (C11, C12), and the transport delivers what was sent
    (C42). *)
From Verif Require Import Base SysModel.
Open Scope N_scope.

(** * Numbers as bytes *)
Fixpoint le (k : nat) (n : N) : list N := match k with O => [] | S k => n mod 256 :: le k (n / 256) end.
Definition of_le (l : list N) : N := foldr (fun b a => b + 256 * a) 0 l.
Definition be (k : nat) (n : N) : list N := reverse (le k n).
Definition of_be (l : list N) : N := of_le (reverse l).

(** * CBOR *)
(** The head of an item: its kind and a number in the shortest form (serde_cbor::ser, write_u64). *)
Definition enc_head (major n : N) : list N :=
  if n <? 24 then [32 * major + n]
  else if n <? 2 ^ 8 then (32 * major + 24) :: be 1 n
  else if n <? 2 ^ 16 then (32 * major + 25) :: be 2 n
  else if n <? 2 ^ 32 then (32 * major + 26) :: be 4 n
  else (32 * major + 27) :: be 8 n.
Definition enc_text (s : list N) : list N := enc_head 3 (N.of_nat (length s)) ++ s.
Definition enc_uint (n : N) : list N := enc_head 0 n.
Definition enc_bool (b : bool) : list N := [if b then 245 else 244].

(** The names of the fields, in bytes. *)
Fixpoint str_bytes (s : string) : list N :=
  match s with String.EmptyString => [] | String.String a s => Ascii.N_of_ascii a :: str_bytes s end.
(** ProcessInfo, lib/kpi/src/process.rs:62-80. *)
Record pinfo := mkPI {
  pi_pid : N; pi_has_tls : bool; pi_tls_data : N; pi_tls_data_len : N; pi_tls_len_total : N; pi_align : N;
  pi_cmdline : list N; pi_app : list N }.
(** serde_cbor::to_vec of it: a map from the names of the fields, in their order. *)
Definition enc_pinfo (p : pinfo) : list N :=
  enc_head 5 8 ++
  enc_text (str_bytes "pid") ++ enc_uint (pi_pid p) ++
  enc_text (str_bytes "has_tls") ++ enc_bool (pi_has_tls p) ++
  enc_text (str_bytes "tls_data") ++ enc_uint (pi_tls_data p) ++
  enc_text (str_bytes "tls_data_len") ++ enc_uint (pi_tls_data_len p) ++
  enc_text (str_bytes "tls_len_total") ++ enc_uint (pi_tls_len_total p) ++
  enc_text (str_bytes "alignment") ++ enc_uint (pi_align p) ++
  enc_text (str_bytes "cmdline") ++ enc_text (pi_cmdline p) ++
  enc_text (str_bytes "app_cmdline") ++ enc_text (pi_app p).

Definition dec_bytes (k : nat) (s : list N) : option (N * list N) :=
  if Nat.leb k (length s) then Some (of_be (take k s), drop k s) else None.
Definition dec_head (s : list N) : option (N * N * list N) :=
  match s with
  | [] => None
  | b :: s =>
      let major := b / 32 in
      let info := b mod 32 in
      if info <? 24 then Some (major, info, s)
      else match (if info =? 24 then dec_bytes 1 s else if info =? 25 then dec_bytes 2 s
                  else if info =? 26 then dec_bytes 4 s else if info =? 27 then dec_bytes 8 s else None) with
           | Some (n, s) => Some (major, n, s)
           | None => None
           end
  end.
Inductive item := IInt (n : N) | IBool (b : bool) | IText (s : list N).
(** The items that occur; another kind of item is an error (for an unknown field it would be skipped). *)
Definition dec_item (s : list N) : option (item * list N) :=
  match dec_head s with
  | None => None
  | Some (major, n, r) =>
      if major =? 0 then Some (IInt n, r)
      else if major =? 3 then
        if n <=? N.of_nat (length r) then Some (IText (take (N.to_nat n) r), drop (N.to_nat n) r) else None
      else if (major =? 7) && (n =? 20) then Some (IBool false, r)
      else if (major =? 7) && (n =? 21) then Some (IBool true, r)
      else None
  end.
Fixpoint dec_entries (k : nat) (s : list N) : option (list (list N * item) * list N) :=
  match k with
  | O => Some ([], s)
  | S k =>
      match dec_item s with
      | Some (IText key, s) =>
          match dec_item s with
          | Some (v, s) => match dec_entries k s with Some (l, s) => Some ((key, v) :: l, s) | None => None end
          | None => None
          end
      | _ => None
      end
  end.
(** The derived visitor: every field once. *)
Definition field (l : list (list N * item)) (name : string) : option item :=
  match filter (fun x => x.1 = str_bytes name) l with [(_, v)] => Some v | _ => None end.
Definition as_int (i : option item) : option N := match i with Some (IInt n) => Some n | _ => None end.
Definition as_bool (i : option item) : option bool := match i with Some (IBool b) => Some b | _ => None end.
Definition as_text (i : option item) : option (list N) := match i with Some (IText s) => Some s | _ => None end.
(** serde_cbor::from_slice. *)
Definition dec_pinfo (s : list N) : option pinfo :=
  match dec_head s with
  | Some (5, n, r) =>
      if n <=? N.of_nat (length r) then
        match dec_entries (N.to_nat n) r with
        | Some (l, []) =>
            pid ← as_int (field l "pid"); has ← as_bool (field l "has_tls"); td ← as_int (field l "tls_data");
            tl ← as_int (field l "tls_data_len"); tt ← as_int (field l "tls_len_total");
            al ← as_int (field l "alignment"); cmd ← as_text (field l "cmdline"); app ← as_text (field l "app_cmdline");
            Some (mkPI pid has td tl tt al cmd app)
        | _ => None
        end
      else None
  | _ => None
  end.

(** * The system calls *)
(** What the kernel leaves in the program's buffer and returns, syscall.rs:92-101 and :167-176: data that does not
    fit is not copied, but its length is returned.  [copy]: the outcome of checking and writing the buffer. *)
Definition give (copy : res unit) (data : list N) (buf : list N) : res (list N * nat) :=
  if Nat.leb (length data) (length buf) then
    match copy with
    | Ok _ => Ok (data ++ drop (length data) buf, length data)
    | Err e => Err e
    | Panic => Panic
    end
  else Ok (buf, length data).
(** Vec::resize(len, 0). *)
Definition resize (len : nat) (buf : list N) : list N := take len buf ++ replicate (len - length buf) 0.

(** Process::process_info, process.rs:99-121, of a library built with debug assertions or not. *)
Definition PINFO_BUF : nat := N.to_nat 256.
Definition process_info (debug : bool) (copy : res unit) (p : pinfo) : res pinfo :=
  match give copy (enc_pinfo p) (replicate PINFO_BUF 0) with
  | Ok (buf, len) =>
      if debug && negb (Nat.leb len (length buf)) then Panic
      else match dec_pinfo (resize len buf) with Some p => Ok p | None => Panic end
  | Err e => Err e
  | Panic => Panic
  end.

(** * Hardware threads *)
(** CpuThread, lib/kpi/src/system.rs:47-59. *)
Record cpu := mkCpu { h_id : N; h_node : N; h_package : N; h_core : N; h_thread : N }.
(** A thread as the firmware describes it, and what the kernel makes of it on machine [mid], syscall.rs:74-82,
    registration.rs:54-62. *)
Record hw := mkHw { w_id : N; w_node : option N; w_package : N; w_core : N; w_thread : N }.
Definition cpu_of (mid : N) (w : hw) : cpu :=
  mkCpu (new_gtid (w_id w) mid) (default 0 (w_node w)) (w_package w) (w_core w) (w_thread w).
(** abomonation::encode of a Vec<CpuThread>: the vector's own three words, then its elements. *)
Definition enc_cpu (c : cpu) : list N :=
  le 8 (h_id c) ++ le 8 (h_node c) ++ le 8 (h_package c) ++ le 8 (h_core c) ++ le 8 (h_thread c).
Definition enc_cpus (ptr cap : N) (l : list cpu) : list N :=
  (le 8 ptr ++ le 8 cap ++ le 8 (N.of_nat (length l))) ++ concat (map enc_cpu l).
Definition word_at (i : nat) (s : list N) : N := of_le (take 8 (drop (8 * i) s)).
Definition dec_cpu (s : list N) : cpu := mkCpu (word_at 0 s) (word_at 1 s) (word_at 2 s) (word_at 3 s) (word_at 4 s).
Fixpoint dec_cpus_n (n : nat) (s : list N) : list cpu :=
  match n with O => [] | S n => dec_cpu s :: dec_cpus_n n (drop 40 s) end.
(** abomonation::decode. *)
Definition dec_cpus (s : list N) : option (list cpu * list N) :=
  if Nat.ltb (length s) 24 then None
  else let n := word_at 2 s in
       let r := drop 24 s in
       if 40 * n <=? N.of_nat (length r) then Some (dec_cpus_n (N.to_nat n) r, drop (40 * N.to_nat n) r) else None.

(** System::threads, system.rs:19-51.  The error stands for InternalError.  [data]: what the kernel wants to copy,
    or its error. *)
Definition THREADS_BUF : nat := N.to_nat 20480.
Definition sys_threads (debug : bool) (call : list N -> res (list N * nat)) : res (list cpu) :=
  match call (replicate THREADS_BUF 0) with
  | Ok (buf, len) =>
      if debug && negb (Nat.leb len (length buf)) then Panic
      else match dec_cpus (resize len buf) with
           | Some (l, []) => Ok l
           | Some _ | None => Err RackscaleRPCError
           end
  | Err e => Err e
  | Panic => Panic
  end.
(** On a single machine, syscall.rs:62-102. *)
Definition threads_native (debug : bool) (copy : res unit) (mid ptr cap : N) (ws : list hw) : res (list cpu) :=
  sys_threads debug (give copy (enc_cpus ptr cap (map (cpu_of mid) ws))).

(** ** On a rack *)
(** init_client_state, controller_state.rs:103-116: a registration adds the machine's threads to the list, whose
    capacity is MAX_MACHINES * MAX_CORES, and to the machine's own, of capacity MAX_CORES; a push beyond panics.
    mid - 1 picks the machine's own list (there are MAX_MACHINES). *)
Definition MAX_CORES : N := 192.
Definition MAX_MACHINES : N := 16.
Record ctl := mkCtl { k_all : list cpu; k_aff : N -> list N }.
Definition ctl_init : ctl := mkCtl [] (fun _ => []).
Definition register (k : ctl) (mid : N) (l : list cpu) : res ctl :=
  if (mid =? 0) || (MAX_MACHINES <? mid) then Panic
  else if MAX_CORES <? N.of_nat (length (k_aff k mid) + length l)%nat then Panic
  else if MAX_CORES * MAX_MACHINES <? N.of_nat (length (k_all k) + length l) then Panic
  else Ok (mkCtl (k_all k ++ l) (fun m => if m =? mid then k_aff k mid ++ map h_node l else k_aff k m)).
Fixpoint register_all (k : ctl) (l : list (N * list hw)) : res ctl :=
  match l with
  | [] => Ok k
  | (mid, ws) :: l =>
      match register k mid (map (cpu_of mid) ws) with Ok k => register_all k l | Err e => Err e | Panic => Panic end
  end.
(** handle_get_hardware_threads in the controller: the reply is built in the server's buffer of 8192 bytes
    (lib/rpc/src/server.rs:21) after 24 bytes for the result; a slice beyond the buffer panics. *)
Definition SRV_BUF : N := 8192.
Definition KRES : N := 24.
Definition handle_threads (k : ctl) (ptr cap : N) : res (list N) :=
  if KRES + 40 * N.of_nat (length (k_all k)) + 24 <=? SRV_BUF then Ok (enc_cpus ptr cap (k_all k)) else Panic.
(** rpc_get_hardware_threads in the client: the reply's data, in a buffer of 20480 bytes, is copied if it fits. *)
Definition client_threads (copy : res unit) (data buf : list N) : res (list N * nat) :=
  if Nat.leb (length data) THREADS_BUF && Nat.leb (length data) (length buf) then
    match copy with
    | Ok _ => Ok (data ++ drop (length data) buf, length data)
    | Err e => Err e
    | Panic => Panic
    end
  else Err RackscaleRPCError.
(** A program on a client asks; a panic in the controller ends the rack. *)
Definition threads_rack (debug : bool) (copy : res unit) (k : ctl) (ptr cap : N) : res (list cpu) :=
  match handle_threads k ptr cap with
  | Ok data => sys_threads debug (client_threads copy data)
  | Err e => Err e
  | Panic => Panic
  end.
