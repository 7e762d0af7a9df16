(** Model of the TCP transport of the RPC library, lib/rpc/src/transport/smoltcp.rs: how
    messages are cut into the byte stream of a socket and put together again.

    A connection has two directions that share nothing but the lock of the interface; the
    model is one direction: a thread that sends at one end, a thread that receives at the
    other end (a [Client] is behind a mutex and a [Server] belongs to one thread).

    TCP itself (the smoltcp crate) is not modelled: a direction is a send buffer, bytes on
    the wire and a receive buffer, and the bytes stay in order.  How many bytes a call of
    [send_slice], [recv_slice] or [poll] moves is arbitrary (at least one if it can move any).
    The connection stays open. *)
From Verif Require Import Base RpcModel.

(** Where the sending thread is: outside; in [send] before its first attempt (smoltcp.rs:67-86)
    with the slices still to be sent after this one; in the loop of [send]
    (smoltcp.rs:97-133), where [buf] is [send_buf[offset..]]. *)
Inductive tsnd :=
| SdIdle
| SdFirst (try : bool) (buf : list N) (rest : list (list N))
| SdLoop (buf : list N) (rest : list (list N)).

(** Where the receiving thread is: outside; in [recv_msg] before its first attempt
    (smoltcp.rs:188-206); in [recv] for the rest of the header, with the bytes of it received
    so far (smoltcp.rs:209-210, 146-161); in [recv] for the first [n] bytes of the buffer
    [cur] with [got] of them received, [done] the buffers before it and [rest] the ones
    after it (smoltcp.rs:228-246).  [next] is [recv_count] after this buffer, or None if
    recv_msg returns after it. *)
Inductive trcv :=
| RvIdle
| RvFirst (try : bool) (bufs : list (list N))
| RvHdr (got : list N) (bufs : list (list N))
| RvBuf (h : rpchdr) (done : list (list N)) (got : list N) (n : nat) (cur : list N)
        (rest : list (list N)) (next : option nat).

(** The direction: send buffer, wire, receive buffer and the two threads. *)
Record tdir := mkTd {
  t_tx : list N; t_wire : list N; t_rx : list N; t_snd : tsnd; t_rcv : trcv }.

(** TCPTransport::new, smoltcp.rs:30-64, connected. *)
Definition td_init : tdir := mkTd [] [] [] SdIdle RvIdle.
(** RX_BUF_LEN, TX_BUF_LEN, smoltcp.rs:19-20; parameters of the model. *)
Definition TCP_BUF_LEN : N := 8192.

(** Results of recv_msg and try_recv_msg: a message, Ok(false), Err(InternalError) (the
    header has been received). *)
Inductive tgot := GMsg (h : rpchdr) (bufs : list (list N)) | GNone | GErr (h : rpchdr).
(** What the callers see. *)
Inductive tev :=
| TvSend (try : bool) (h : rpchdr) (payload : list (list N)) | TvSent (ok : bool)
| TvRecv (try : bool) (bufs : list (list N)) | TvGot (r : tgot).
(** Calls of send_msg or try_send_msg and of recv_msg or try_recv_msg; a step of the sending
    or the receiving thread that moves [k] bytes; the interface of the sender or of the
    receiver is polled by any thread. *)
Inductive tact :=
| TSend (try : bool) (h : rpchdr) (payload : list (list N)) | TRecv (try : bool) (bufs : list (list N))
| TSnd (k : nat) | TRcv (k : nat) | TPollS (k : nat) | TPollR (k : nat).

(** send_msg and try_send_msg after a slice has been sent, smoltcp.rs:264-268, 273-278: the next slice;
    [send] of an empty one returns at once (smoltcp.rs:71-73). *)
Fixpoint sd_next (parts : list (list N)) : tsnd :=
  match parts with
  | [] => SdIdle
  | [] :: ps => sd_next ps
  | p :: ps => SdFirst false p ps
  end.
Definition sd_ret (s : tsnd) : list tev := match s with SdIdle => [TvSent true] | _ => [] end.

(** [k] bytes of [buf] are put into the send buffer, smoltcp.rs:80-85, 107-116; sending goes
    on behind them, with the next slice if the buffer is finished. *)
Definition sd_after (buf : list N) (rest : list (list N)) (k : nat) : tsnd :=
  if k =? length buf then sd_next rest else SdLoop (drop k buf) rest.

(** How many bytes may a step move, out of [have] into [room]. *)
Definition chunk (k have room : nat) : bool := (1 <=? k) && (k <=? have) && (k <=? room).

(** One section of [send] under the lock, smoltcp.rs:75-95 and 99-117.  [can_send] is: the
    send buffer is not full. *)
Definition snd_step (txc : nat) (tx : list N) (s : tsnd) (k : nat) : option (list N * tsnd * list tev) :=
  match s with
  | SdIdle => None
  | SdFirst try buf rest =>
      if length tx <? txc then
        if chunk k (length buf) (txc - length tx) then
          let s' := sd_after buf rest k in Some (tx ++ take k buf, s', sd_ret s')
        else None
      else if k =? 0 then
        if try then Some (tx, SdIdle, [TvSent false])               (* :90-91 *)
        else Some (tx, SdLoop buf rest, [])
      else None
  | SdLoop buf rest =>
      if chunk k (length buf) (txc - length tx) then
        let s' := sd_after buf rest k in Some (tx ++ take k buf, s', sd_ret s')
      else None
  end.

(** The loop over the buffers of recv_msg from one buffer on, smoltcp.rs:228-246; [recv] of
    an empty slice returns at once (smoltcp.rs:142-144).  [recv_count] never exceeds
    [expected_data], so the subtraction does not underflow. *)
Fixpoint rv_next (h : rpchdr) (done rest : list (list N)) (count exp : nat) : trcv * list tev :=
  match rest with
  | [] => (RvIdle, [TvGot (GMsg h done)])
  | p :: rest =>
      if exp <? count + length p then
        if exp - count =? 0 then (RvIdle, [TvGot (GMsg h (done ++ p :: rest))])
        else (RvBuf h done [] (exp - count) p rest None, [])
      else if length p =? 0 then rv_next h (done ++ [p]) rest count exp
      else (RvBuf h done [] (length p) p rest (Some (count + length p)), [])
  end.

(** recv_msg once the header is there, smoltcp.rs:214-228. *)
Definition rv_header (b : list N) (bufs : list (list N)) : trcv * list tev :=
  let h := hdr_of_bytes b in
  let exp := N.to_nat (r_len h) in
  if total_len bufs <? exp then (RvIdle, [TvGot (GErr h)])
  else if exp =? 0 then (RvIdle, [TvGot (GMsg h bufs)])
  else rv_next h [] bufs 0 exp.

(** The header with the bytes received so far. *)
Definition rv_got (got : list N) (bufs : list (list N)) : trcv * list tev :=
  if length got =? 4 then rv_header got bufs else (RvHdr got bufs, []).

(** One section of recv_msg or [recv] under the lock, smoltcp.rs:188-206, 146-164.
    [can_recv] is: the receive buffer is not empty. *)
Definition rcv_step (rx : list N) (r : trcv) (k : nat) : option (list N * trcv * list tev) :=
  match r with
  | RvIdle => None
  | RvFirst try bufs =>
      if length rx =? 0 then
        if k =? 0 then
          if try then Some (rx, RvIdle, [TvGot GNone])              (* :203-205 *)
          else Some (rx, RvHdr [] bufs, [])
        else None
      else if chunk k 4 (length rx) then
        let '(r', e) := rv_got (take k rx) bufs in Some (drop k rx, r', e)
      else None
  | RvHdr got bufs =>
      if chunk k (4 - length got) (length rx) then
        let '(r', e) := rv_got (got ++ take k rx) bufs in Some (drop k rx, r', e)
      else None
  | RvBuf h done got n cur rest next =>
      if chunk k (n - length got) (length rx) then
        let got' := got ++ take k rx in
        if length got' =? n then
          let cur' := got' ++ drop n cur in
          match next with
          | None => Some (drop k rx, RvIdle, [TvGot (GMsg h (done ++ cur' :: rest))])   (* :235-236 *)
          | Some count =>
              let '(r', e) := rv_next h (done ++ [cur']) rest count (N.to_nat (r_len h)) in
              Some (drop k rx, r', e)
          end
        else Some (drop k rx, RvBuf h done got' n cur rest next, [])
      else None
  end.

(** One step.  [txc], [rxc]: sizes of the socket's buffers. *)
Definition t_step (txc rxc : nat) (d : tdir) (a : tact) : option (tdir * list tev) :=
  let 'mkTd tx wire rx s r := d in
  match a with
  | TSend try h payload =>                                          (* :262-263, 271-272 *)
      match s with
      | SdIdle => Some (mkTd tx wire rx (SdFirst try (hdr_bytes h) payload) r, [TvSend try h payload])
      | _ => None
      end
  | TRecv try bufs =>                                               (* :182-188 *)
      match r with
      | RvIdle => Some (mkTd tx wire rx s (RvFirst try bufs), [TvRecv try bufs])
      | _ => None
      end
  | TSnd k =>
      match snd_step txc tx s k with
      | Some (tx', s', e) => Some (mkTd tx' wire rx s' r, e)
      | None => None
      end
  | TRcv k =>
      match rcv_step rx r k with
      | Some (rx', r', e) => Some (mkTd tx wire rx' s r', e)
      | None => None
      end
  | TPollS k =>                        (* what is sent fits the receive buffer (TCP's window) *)
      if chunk k (length tx) (rxc - (length wire + length rx)) then
        Some (mkTd (drop k tx) (wire ++ take k tx) rx s r, [])
      else None
  | TPollR k =>
      if chunk k (length wire) (length wire) then
        Some (mkTd tx (drop k wire) (rx ++ take k wire) s r, [])
      else None
  end.

Fixpoint t_run (txc rxc : nat) (d : tdir) (l : list tact) : option (tdir * list tev) :=
  match l with
  | [] => Some (d, [])
  | a :: l =>
      match t_step txc rxc d a with
      | Some (d1, e1) =>
          match t_run txc rxc d1 l with Some (d2, e2) => Some (d2, e1 ++ e2) | None => None end
      | None => None
      end
  end.
