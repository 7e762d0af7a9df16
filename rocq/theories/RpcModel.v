(** Model of the shared-memory RPC transport: the queue of byte messages
    (lib/rpc/src/transport/shmem/queue_mpmc.rs), the transport on top of it
    (shmem/mod.rs, shmem/transport.rs) and the RPC client and server (client.rs,
    server.rs, rpc.rs). *)
From Verif Require Import Base QueueModel.

(** ** The queue *)

(** QUEUE_ENTRY_SIZE, queue_mpmc.rs:18.  The model of the queue has it as a parameter. *)
Definition QUEUE_ENTRY_SIZE : N := 8192.

(** Node without the sequence number, queue_mpmc.rs:26-31: data_len (a u16) and value. *)
Record node := mkNode { nd_len : N; nd_buf : list N }.

(** [x as u16]. *)
Definition as_u16 (n : nat) : N := (N.of_nat n mod 2 ^ 16)%N.

(** [value[off..off + d.len()].copy_from_slice(d)], queue_mpmc.rs:182; None = out of bounds. *)
Definition copy_at (buf : list N) (off : nat) (d : list N) : option (list N) :=
  if off + length d <=? length buf
  then Some (take off buf ++ d ++ drop (off + length d) buf) else None.

(** The loop of push, queue_mpmc.rs:180-184. *)
Fixpoint gather (buf : list N) (off : nat) (values : list (list N)) : option (list N) :=
  match values with
  | [] => Some buf
  | d :: ds => match copy_at buf off d with Some buf' => gather buf' (off + length d) ds | None => None end
  end.

(** [values.iter().fold(0, |acc, x| acc + x.len())], queue_mpmc.rs:155, 200. *)
Definition total_len (values : list (list N)) : nat := foldl (fun acc x => acc + length x) 0 values.

(** The loop of pop, queue_mpmc.rs:223-245: [vi] value_index, [off] offset, [tot]
    total_offset.  None = index out of bounds; [fuel] bounds the iterations. *)
Fixpoint scatter (fuel : nat) (src : list N) (len : nat) (values : list (list N)) (vi off tot : nat)
  : option (list (list N)) :=
  match fuel with
  | 0 => None
  | S fuel =>
      if tot <? len then
        match values !! vi with
        | None => None
        | Some v =>
            let n := length v `min` (len - tot) in
            if (off + n <=? length v) && (tot + n <=? length src) then
              let v' := take off v ++ take n (drop tot src) ++ drop (off + n) v in
              let values' := <[vi := v']> values in
              if off + n =? length v' then scatter fuel src len values' (S vi) 0 (tot + n)
              else scatter fuel src len values' vi (off + n) (tot + n)
            else None
        end
      else Some values
  end.

(** Where a thread is in push (queue_mpmc.rs:153-196) or pop (:198-258); the places are
    those of [qpc]. *)
Inductive spc :=
| SIdle
| SuLoad (sl : list (list N)) | SuSeq (sl : list (list N)) (pos : nat)
| SuCas (sl : list (list N)) (pos : nat) | SuWrite (sl : list (list N)) (pos : nat) | SuStore (pos : nat)
| SoLoad (bufs : list (list N)) | SoSeq (bufs : list (list N)) (pos : nat)
| SoCas (bufs : list (list N)) (pos : nat) | SoCopy (bufs : list (list N)) (pos : nat)
| SoStore (pos : nat) (n : nat) (bufs : list (list N))
| SPanic.

(** State, queue_mpmc.rs:37-43. *)
Record shq := mkShq {
  h_mask : nat; h_seq : list nat; h_node : list node; h_enq : nat; h_deq : nat; h_th : list spc }.

(** init with [init] = true, queue_mpmc.rs:82-123. *)
Definition shq_init (esz c n : nat) : shq :=
  let cap := round_capacity c in
  mkShq (cap - 1) (seq 0 cap) (replicate cap (mkNode 0 (replicate esz 0%N))) 0 0 (replicate n SIdle).

(** Calls and results: enqueue gives a bool, dequeue Ok(len) with the buffers filled or
    Err(NoData). *)
Inductive scall := SPush (sl : list (list N)) | SPop (bufs : list (list N)).
Inductive sresult := SDone | SFull | SGot (n : nat) (bufs : list (list N)) | SNoData.
Inductive sev :=
| SvCall (i : nat) (c : scall) | SvClaim (i : nat) | SvRet (i : nat) (r : sresult)
| SvPanic (i : nat).
Inductive sact := SCall (c : scall) | SStep | SSpurious.

(** One step of a thread.  The copy into or out of the slot is one step: no other thread
    accesses the slot meanwhile (C27_no_data_race). *)
Definition s_exec (esz : nat) (s : shq) (i : nat) (pc : spc) (a : sact)
  : option (list nat * list node * nat * nat * spc * list sev) :=
  let 'mkShq mask sq nds enq deq _ := s in
  let go pc' e := Some (sq, nds, enq, deq, pc', e) in
  match pc, a with
  | SIdle, SCall (SPush sl) =>
      if total_len sl <=? esz then
        if total_len sl =? 0 then go SIdle [SvCall i (SPush sl); SvRet i SDone]     (* :159-161 *)
        else go (SuLoad sl) [SvCall i (SPush sl)]
      else go SPanic [SvCall i (SPush sl); SvPanic i]                              (* :156 *)
  | SIdle, SCall (SPop bufs) =>
      if total_len bufs =? 0 then go SIdle [SvCall i (SPop bufs); SvRet i (SGot 0 bufs)]  (* :201-203 *)
      else go (SoLoad bufs) [SvCall i (SPop bufs)]
  | SuLoad sl, SStep => go (SuSeq sl enq) []
  | SuSeq sl pos, SStep =>
      match sq !! Nat.land pos mask with
      | None => go SPanic [SvPanic i]
      | Some x =>
          let diff := (Z.of_nat x - Z.of_nat pos)%Z in
          if (diff =? 0)%Z then go (SuCas sl pos) []
          else if (diff <? 0)%Z then go SIdle [SvRet i SFull]
          else go (SuLoad sl) []
      end
  | SuCas sl pos, SStep =>
      if enq =? pos then Some (sq, nds, pos + 1, deq, SuWrite sl pos, [SvClaim i])
      else go (SuSeq sl enq) []
  | SuCas sl pos, SSpurious => go (SuSeq sl enq) []
  | SuWrite sl pos, SStep =>                                                       (* :177-184 *)
      match nds !! Nat.land pos mask with
      | None => go SPanic [SvPanic i]
      | Some nd =>
          match gather (nd_buf nd) 0 sl with
          | None => go SPanic [SvPanic i]
          | Some buf =>
              Some (sq, <[Nat.land pos mask := mkNode (as_u16 (total_len sl)) buf]> nds, enq, deq,
                    SuStore pos, [])
          end
      end
  | SuStore pos, SStep =>
      Some (<[Nat.land pos mask := pos + 1]> sq, nds, enq, deq, SIdle, [SvRet i SDone])
  | SoLoad bufs, SStep => go (SoSeq bufs deq) []
  | SoSeq bufs pos, SStep =>
      match sq !! Nat.land pos mask with
      | None => go SPanic [SvPanic i]
      | Some x =>
          let diff := (Z.of_nat x - Z.of_nat (pos + 1))%Z in
          if (diff =? 0)%Z then go (SoCas bufs pos) []
          else if (diff <? 0)%Z then go SIdle [SvRet i SNoData]
          else go (SoLoad bufs) []
      end
  | SoCas bufs pos, SStep =>
      if deq =? pos then Some (sq, nds, enq, pos + 1, SoCopy bufs pos, [SvClaim i])
      else go (SoSeq bufs deq) []
  | SoCas bufs pos, SSpurious => go (SoSeq bufs deq) []
  | SoCopy bufs pos, SStep =>                                                      (* :213-245 *)
      match nds !! Nat.land pos mask with
      | None => go SPanic [SvPanic i]
      | Some nd =>
          let len := N.to_nat (nd_len nd) in
          if len <=? total_len bufs then
            match scatter (S (len + length bufs)) (nd_buf nd) len bufs 0 0 0 with
            | Some bufs' => go (SoStore pos len bufs') []
            | None => go SPanic [SvPanic i]
            end
          else go SPanic [SvPanic i]                                               (* :219 *)
      end
  | SoStore pos n bufs, SStep =>
      Some (<[Nat.land pos mask := pos + mask + 1]> sq, nds, enq, deq, SIdle, [SvRet i (SGot n bufs)])
  | _, _ => None
  end.

Definition s_step (esz : nat) (s : shq) (i : nat) (a : sact) : option (shq * list sev) :=
  match h_th s !! i with
  | Some pc =>
      match s_exec esz s i pc a with
      | Some (sq, nds, enq, deq, pc', e) =>
          Some (mkShq (h_mask s) sq nds enq deq (<[i := pc']> (h_th s)), e)
      | None => None
      end
  | None => None
  end.

Fixpoint s_run (esz : nat) (s : shq) (l : list (nat * sact)) : option (shq * list sev) :=
  match l with
  | [] => Some (s, [])
  | (i, a) :: l =>
      match s_step esz s i a with
      | Some (s1, e1) =>
          match s_run esz s1 l with Some (s2, e2) => Some (s2, e1 ++ e2) | None => None end
      | None => None
      end
  end.

(** ** Client and server *)

(** RPCHeader, rpc.rs:34-39: packed; the bytes are msg_id, msg_type and msg_len in
    little-endian order. *)
Record rpchdr := mkHdr { r_id : N; r_type : N; r_len : N }.
Definition hdr_bytes (h : rpchdr) : list N :=
  [r_id h mod 256; r_type h mod 256; r_len h mod 256; (r_len h / 256) mod 256]%N.
(** Writing the received bytes over the header ([as_mut_bytes], rpc.rs:46-50); fewer than
    four bytes overwrite only a part. *)
Definition hdr_of_bytes (b : list N) : rpchdr :=
  mkHdr (nth 0 b 0%N) (nth 1 b 0%N) (nth 2 b 0 + 256 * nth 3 b 0)%N.

Inductive rpcerror := DuplicateRPCType | NoHandlerForRPCType | HandlerError (e : nat).
Inductive rres (A : Type) := ROkay (a : A) | RErr (e : rpcerror) | RPanic | RBlocks.
Arguments ROkay {A}. Arguments RErr {A}. Arguments RPanic {A}. Arguments RBlocks {A}.

(** A handler (server.rs:12): it may change state [St] of the server, the header and the
    8192-byte buffer, or fail. *)
Definition handler (St : Type) : Type := St -> rpchdr -> list N -> St * (rpchdr * list N + nat).

(** Server (server.rs:17-22; the transport is outside) and Client (client.rs:9-12). *)
Record server (St : Type) := mkServer {
  sv_st : St; sv_handlers : gmap N (handler St); sv_hdr : rpchdr; sv_data : list N }.
Arguments mkServer {St}. Arguments sv_st {St}. Arguments sv_handlers {St}. Arguments sv_hdr {St}.
Arguments sv_data {St}.

(** Server::new, server.rs:25-36. *)
Definition server_new {St} (st : St) : server St :=
  mkServer st ∅ (mkHdr 0 0 0) (replicate (N.to_nat QUEUE_ENTRY_SIZE) 0%N).

(** register, server.rs:39-48. *)
Definition server_register {St} (s : server St) (id : N) (h : handler St) : server St * rres unit :=
  match sv_handlers s !! id with
  | Some _ => (s, RErr DuplicateRPCType)
  | None => (mkServer (sv_st s) (<[id := h]> (sv_handlers s)) (sv_hdr s) (sv_data s), ROkay tt)
  end.

(** The two directions of the transport carry messages in order (C27, C28).  A message put
    into the queue must fit an entry; one taken out must fit the buffers, and fills them
    in order. *)
Definition chan_send (ch : list (list N)) (parts : list (list N)) : rres (list (list N)) :=
  if (N.of_nat (total_len parts) <=? QUEUE_ENTRY_SIZE)%N
  then ROkay (if total_len parts =? 0 then ch else ch ++ [concat parts]) else RPanic.

(** Fill buffers of the given contents with a message, in order. *)
Fixpoint fill (bufs : list (list N)) (m : list N) : list (list N) :=
  match bufs with
  | [] => []
  | b :: bufs =>
      (take (length b) m ++ drop (length m) b) :: fill bufs (drop (length b) m)
  end.

Definition chan_recv (ch : list (list N)) (bufs : list (list N)) : rres (list (list N) * list (list N)) :=
  match ch with
  | [] => RBlocks
  | m :: ch' => if length m <=? total_len bufs then ROkay (ch', fill bufs m) else RPanic
  end.

(** send_msg, transport.rs:62-72: seven slices at most. *)
Definition send_msg (ch : list (list N)) (h : rpchdr) (payload : list (list N)) : rres (list (list N)) :=
  if length payload <=? 6 then chan_send ch (hdr_bytes h :: payload) else RPanic.

(** recv_msg, transport.rs:85-110. *)
Definition recv_msg (ch : list (list N)) (h : rpchdr) (payload : list (list N))
  : rres (list (list N) * rpchdr * list (list N)) :=
  if length payload <=? 6 then
    match chan_recv ch (hdr_bytes h :: payload) with
    | ROkay (ch', hb :: payload') => ROkay (ch', hdr_of_bytes hb, payload')
    | ROkay (ch', []) => RPanic
    | RErr e => RErr e | RPanic => RPanic | RBlocks => RBlocks
    end
  else RPanic.

(** The first half of call, client.rs:28-43: send the request (debug assertion on the
    length as in debug builds). *)
Definition client_send (c2s : list (list N)) (h : rpchdr) (id : N) (data_in : list (list N))
  : rres (list (list N) * rpchdr) :=
  if (N.of_nat (total_len data_in) <? 65535)%N then
    let h' := mkHdr (r_id h) id (as_u16 (total_len data_in)) in
    match send_msg c2s h' data_in with
    | ROkay c2s' => ROkay (c2s', h')
    | RErr e => RErr e | RPanic => RPanic | RBlocks => RBlocks
    end
  else RPanic.

(** reply, server.rs:140-143: the slice of the first msg_len bytes. *)
Definition server_reply {St} (s2c : list (list N)) (s : server St) : rres (list (list N)) :=
  if N.to_nat (r_len (sv_hdr s)) <=? length (sv_data s)
  then send_msg s2c (sv_hdr s) [take (N.to_nat (r_len (sv_hdr s))) (sv_data s)] else RPanic.

(** receive, server.rs:119-124. *)
Definition server_receive {St} (c2s : list (list N)) (s : server St) : rres (list (list N) * server St) :=
  match recv_msg c2s (sv_hdr s) [sv_data s] with
  | ROkay (c2s', h, [d]) => ROkay (c2s', mkServer (sv_st s) (sv_handlers s) h d)
  | ROkay _ => RPanic
  | RErr e => RErr e | RPanic => RPanic | RBlocks => RBlocks
  end.

(** handle, server.rs:72-85: queues, server and result.  A handler that fails leaves the
    header and the buffer as it changed them; the model keeps the received ones (they are
    overwritten by the next request). *)
Definition server_handle {St} (c2s s2c : list (list N)) (s : server St)
  : (list (list N) * list (list N) * server St) * rres unit :=
  match server_receive c2s s with
  | ROkay (c2s', s1) =>
      match sv_handlers s1 !! r_type (sv_hdr s1) with
      | Some func =>
          match func (sv_st s1) (sv_hdr s1) (sv_data s1) with
          | (st', inl (h', d')) =>
              let s2 := mkServer st' (sv_handlers s1) h' d' in
              match server_reply s2c s2 with
              | ROkay s2c' => ((c2s', s2c', s2), ROkay tt)
              | RErr e => ((c2s', s2c, s2), RErr e)
              | RPanic => ((c2s', s2c, s2), RPanic)
              | RBlocks => ((c2s', s2c, s2), RBlocks)
              end
          | (st', inr e) =>
              ((c2s', s2c, mkServer st' (sv_handlers s1) (sv_hdr s1) (sv_data s1)), RErr (HandlerError e))
          end
      | None => ((c2s', s2c, s1), RErr NoHandlerForRPCType)
      end
  | RErr e => ((c2s, s2c, s), RErr e)
  | RPanic => ((c2s, s2c, s), RPanic)
  | RBlocks => ((c2s, s2c, s), RBlocks)
  end.

(** try_handle, server.rs:88-104: an unknown type is ignored; a missing message is no
    error. *)
Definition server_try_handle {St} (c2s s2c : list (list N)) (s : server St)
  : (list (list N) * list (list N) * server St) * rres bool :=
  match server_handle c2s s2c s with
  | (x, ROkay _) => (x, ROkay true)
  | (x, RErr NoHandlerForRPCType) => (x, ROkay false)
  | (x, RErr e) => (x, RErr e)
  | (x, RPanic) => (x, RPanic)
  | (x, RBlocks) => (x, ROkay false)
  end.

(** The second half of call, client.rs:45-47. *)
Definition client_recv (s2c : list (list N)) (h : rpchdr) (data_out : list (list N))
  : rres (list (list N) * rpchdr * list (list N)) := recv_msg s2c h data_out.


(** ** A client and a server on a pair of queues *)

(** The client is outside [call], waits in it for the reply, or has panicked. *)
Inductive clst := ClIdle | ClWait (data_out : list (list N)) | ClDead.
Record rsys (St : Type) := mkRsys {
  y_c2s : list (list N); y_s2c : list (list N); y_cl : clst; y_hdr : rpchdr;
  y_srv : server St; y_dead : bool }.
Arguments mkRsys {St}. Arguments y_c2s {St}. Arguments y_s2c {St}. Arguments y_cl {St}.
Arguments y_hdr {St}. Arguments y_srv {St}. Arguments y_dead {St}.

(** Client::new and a server with no request received yet. *)
Definition rsys_init {St} (s : server St) : rsys St := mkRsys [] [] ClIdle (mkHdr 0 0 0) s false.

(** The client calls; the reply arrives at the waiting client; the server runs handle or
    try_handle.  A server that panics stops. *)
Inductive ract := YCall (id : N) (data_in data_out : list (list N)) | YRecv | YHandle | YTry.
Inductive yev :=
| VCall (id : N) (data_in data_out : list (list N)) | VReturn (data_out : list (list N)) | VClientPanic
| VHandle (r : rres unit) | VTry (r : rres bool).

Definition y_step {St} (y : rsys St) (a : ract) : option (rsys St * list yev) :=
  let 'mkRsys c2s s2c cl hdr srv dead := y in
  match a, cl with
  | YCall id din dout, ClIdle =>
      match client_send c2s hdr id din with
      | ROkay (c2s', h') => Some (mkRsys c2s' s2c (ClWait dout) h' srv dead, [VCall id din dout])
      | _ => Some (mkRsys c2s s2c ClDead hdr srv dead, [VCall id din dout; VClientPanic])
      end
  | YRecv, ClWait dout =>
      match client_recv s2c hdr dout with
      | ROkay (s2c', h', dout') => Some (mkRsys c2s s2c' ClIdle h' srv dead, [VReturn dout'])
      | RBlocks => None
      | _ => Some (mkRsys c2s s2c ClDead hdr srv dead, [VClientPanic])
      end
  | YHandle, _ =>
      if dead then None else
      match server_handle c2s s2c srv with
      | (_, RBlocks) => None
      | ((c2s', s2c', srv'), r) =>
          Some (mkRsys c2s' s2c' cl hdr srv' (match r with RPanic => true | _ => false end), [VHandle r])
      end
  | YTry, _ =>
      if dead then None else
      match server_try_handle c2s s2c srv with
      | ((c2s', s2c', srv'), r) =>
          Some (mkRsys c2s' s2c' cl hdr srv' (match r with RPanic => true | _ => false end), [VTry r])
      end
  | _, _ => None
  end.

Fixpoint y_run {St} (y : rsys St) (l : list ract) : option (rsys St * list yev) :=
  match l with
  | [] => Some (y, [])
  | a :: l =>
      match y_step y a with
      | Some (y1, e1) => match y_run y1 l with Some (y2, e2) => Some (y2, e1 ++ e2) | None => None end
      | None => None
      end
  end.

(** Several calls of register. *)
Fixpoint server_registers {St} (s : server St) (l : list (N * handler St)) : server St * list (rres unit) :=
  match l with
  | [] => (s, [])
  | (id, h) :: l =>
      let '(s1, r) := server_register s id h in
      let '(s2, rs) := server_registers s1 l in (s2, r :: rs)
  end.
