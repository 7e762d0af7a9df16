(** Specification of remote procedure calls between one client and one server. *)
From Verif Require Import Base RpcModel RpcSpec TcpModel TcpSpec TrModel.

(** What the server shows for a request: the result of handle, or of try_handle. *)
Definition shows (e : zev) (r : rres unit) (t : rres bool) : Prop := e = ZvY (VHandle r) \/ e = ZvY (VTry t).

(** As [rp_step] (RpcSpec) with the limits of TCP: a request of fewer than 65535 bytes is sent,
    one of more than 8192 is not received; a reply of more than 8192 panics the server; a
    reply that does not fit the caller's buffers is an error.  The handlers are [tbl]; the
    booleans say that the client and the server have panicked. *)
Inductive tp_step {St} (tbl : gmap N (handler St))
  : St * rphase * bool * bool -> zev -> St * rphase * bool * bool -> Prop :=
| TP_call st d id din dout : (N.of_nat (length (concat din)) < 65535)%N ->
    tp_step tbl (st, PIdle, false, d) (ZvY (VCall id din dout)) (st, PReq id din dout, false, d)
| TP_call_bad st d id din dout : (65535 <= N.of_nat (length (concat din)))%N ->
    tp_step tbl (st, PIdle, false, d) (ZvY (VCall id din dout)) (st, PBad, false, d)
| TP_bad st d : tp_step tbl (st, PBad, false, d) (ZvY VClientPanic) (st, PIdle, true, d)
| TP_serve st id din dout c f h buf st' h' d' e : tbl !! id = Some f -> request_of id din h buf ->
    f st h buf = (st', inl (h', d')) -> (r_len h' <= 8192)%N -> shows e (ROkay tt) (ROkay true) ->
    tp_step tbl (st, PReq id din dout, c, false) e (st', PRep dout (take (N.to_nat (r_len h')) d'), c, false)
| TP_serve_large st id din dout c f h buf st' h' d' e : tbl !! id = Some f -> request_of id din h buf ->
    f st h buf = (st', inl (h', d')) -> (8192 < r_len h')%N -> shows e RPanic RPanic ->
    tp_step tbl (st, PReq id din dout, c, false) e (st', PLost dout, c, true)
| TP_serve_fail st id din dout c f h buf st' n e : tbl !! id = Some f -> request_of id din h buf ->
    f st h buf = (st', inr n) -> shows e (RErr (HandlerError n)) (RErr (HandlerError n)) ->
    tp_step tbl (st, PReq id din dout, c, false) e (st', PLost dout, c, false)
| TP_unknown st id din dout c e : tbl !! id = None -> shows e (RErr NoHandlerForRPCType) (ROkay false) ->
    tp_step tbl (st, PReq id din dout, c, false) e (st, PLost dout, c, false)
| TP_request_large st id din dout c : (8192 < N.of_nat (length (concat din)))%N ->
    tp_step tbl (st, PReq id din dout, c, false) ZvServerErr (st, PLost dout, c, false)
| TP_poll st p c : tp_step tbl (st, p, c, false) (ZvY (VTry (ROkay false))) (st, p, c, false)
| TP_return st d dout dout' r : filled dout dout' r -> length r <= length (concat dout) ->
    tp_step tbl (st, PRep dout r, false, d) (ZvY (VReturn dout')) (st, PIdle, false, d)
| TP_return_large st d dout r : length (concat dout) < length r ->
    tp_step tbl (st, PRep dout r, false, d) ZvCallErr (st, PIdle, false, d).

Inductive tp_steps {St} (tbl : gmap N (handler St))
  : St * rphase * bool * bool -> list zev -> St * rphase * bool * bool -> Prop :=
| TPS_nil a : tp_steps tbl a [] a
| TPS_cons a e b es c : tp_step tbl a e b -> tp_steps tbl b es c -> tp_steps tbl a (e :: es) c.

(** A message was too large for its receiver. *)
Definition z_err (e : zev) : Prop := e = ZvCallErr \/ e = ZvServerErr.
Definition z_internal_act (a : zact) : Prop := match a with ZUp _ | ZDown _ => True | _ => False end.
(** Types of RPCs are bytes. *)
Definition id_ok (e : zev) : Prop := match e with ZvY (VCall id _ _) => (id < 256)%N | _ => True end.

(** Calls, and calls that have returned or panicked. *)
Definition count_calls (es : list zev) : nat :=
  length (List.filter (fun e => match e with ZvY (VCall _ _ _) => true | _ => false end) es).
Definition count_over (es : list zev) : nat :=
  length (List.filter (fun e => match e with ZvY (VReturn _) | ZvY VClientPanic => true | _ => false end) es).
(** Requests a handler has replied to. *)
Definition count_served (es : list zev) : nat :=
  length (List.filter (fun e => match e with ZvY (VHandle (ROkay _)) | ZvY (VTry (ROkay true)) => true | _ => false end) es).

(** The handlers reply to every request, with at most 8192 bytes. *)
Definition replies {St} (tbl : gmap N (handler St)) : Prop :=
  forall i f, tbl !! i = Some f -> forall st h buf, N.of_nat (length buf) = 8192%N ->
    exists st' h' d', f st h buf = (st', inl (h', d')) /\ (r_len h' <= 8192)%N.
