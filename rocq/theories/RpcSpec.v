(** Specification of a bounded FIFO queue of byte messages shared by threads. *)
From Verif Require Import Base RpcModel.
From stdpp Require Import functions.

(** What a thread is doing: nothing; sending (message not in the queue yet); message in the
    queue, call not returned; receiving into buffers; message taken, call not returned;
    a call with nothing to send or no room to receive, which returns at once; a call that
    must panic; panicked while sending; panicked after taking a message. *)
Inductive bstat :=
| BIdle | BPush (m : list N) | BPushed | BPop (bufs : list (list N)) | BPopped (bufs : list (list N)) (m : list N)
| BSendNothing | BRecvNothing (bufs : list (list N)) | BTooLarge | BDead | BDeadWith (m : list N).

(** [bufs'] is [bufs] with the message [m] written over the beginning: slice lengths are
    the same, the bytes are those of the message in order, then the old ones. *)
Definition received (bufs bufs' : list (list N)) (m : list N) : Prop :=
  map length bufs' = map length bufs /\ concat bufs' = m ++ drop (length m) (concat bufs).

(** A queue of at most [cap] messages of 1 to [esz] bytes.  The message sent is the
    concatenation of the slices. *)
Inductive bq_step (esz cap : nat) : list (list N) * (nat -> bstat) -> sev -> list (list N) * (nat -> bstat) -> Prop :=
| B_push q f i sl : f i = BIdle -> concat sl <> [] -> length (concat sl) <= esz ->
    bq_step esz cap (q, f) (SvCall i (SPush sl)) (q, <[i := BPush (concat sl)]> f)
| B_push_nothing q f i sl : f i = BIdle -> concat sl = [] ->
    bq_step esz cap (q, f) (SvCall i (SPush sl)) (q, <[i := BSendNothing]> f)
| B_push_large q f i sl : f i = BIdle -> esz < length (concat sl) ->
    bq_step esz cap (q, f) (SvCall i (SPush sl)) (q, <[i := BTooLarge]> f)
| B_pop q f i bufs : f i = BIdle -> concat bufs <> [] ->
    bq_step esz cap (q, f) (SvCall i (SPop bufs)) (q, <[i := BPop bufs]> f)
| B_pop_nothing q f i bufs : f i = BIdle -> concat bufs = [] ->
    bq_step esz cap (q, f) (SvCall i (SPop bufs)) (q, <[i := BRecvNothing bufs]> f)
| B_push_in q f i m : f i = BPush m -> length q < cap ->
    bq_step esz cap (q, f) (SvClaim i) (q ++ [m], <[i := BPushed]> f)
| B_pop_out q f i bufs m : f i = BPop bufs ->
    bq_step esz cap (m :: q, f) (SvClaim i) (q, <[i := BPopped bufs m]> f)
| B_push_ok q f i : f i = BPushed -> bq_step esz cap (q, f) (SvRet i SDone) (q, <[i := BIdle]> f)
| B_push_nothing_ok q f i : f i = BSendNothing -> bq_step esz cap (q, f) (SvRet i SDone) (q, <[i := BIdle]> f)
| B_push_full q f i m : f i = BPush m ->
    (length q = cap \/ exists j, (exists b w, f j = BPopped b w) \/ exists w, f j = BDeadWith w) ->
    bq_step esz cap (q, f) (SvRet i SFull) (q, <[i := BIdle]> f)
| B_pop_some q f i bufs bufs' m : f i = BPopped bufs m -> received bufs bufs' m ->
    bq_step esz cap (q, f) (SvRet i (SGot (length m) bufs')) (q, <[i := BIdle]> f)
| B_pop_nothing_ok q f i bufs : f i = BRecvNothing bufs ->
    bq_step esz cap (q, f) (SvRet i (SGot 0 bufs)) (q, <[i := BIdle]> f)
| B_pop_none q f i bufs : f i = BPop bufs -> (q = [] \/ exists j, f j = BPushed) ->
    bq_step esz cap (q, f) (SvRet i SNoData) (q, <[i := BIdle]> f)
| B_too_large q f i : f i = BTooLarge -> bq_step esz cap (q, f) (SvPanic i) (q, <[i := BDead]> f)
| B_no_room q f i bufs m : f i = BPopped bufs m -> length (concat bufs) < length m ->
    bq_step esz cap (q, f) (SvPanic i) (q, <[i := BDeadWith m]> f).

Inductive bq_steps (esz cap : nat) : list (list N) * (nat -> bstat) -> list sev -> list (list N) * (nat -> bstat) -> Prop :=
| BQ_nil a : bq_steps esz cap a [] a
| BQ_cons a e b es c : bq_step esz cap a e b -> bq_steps esz cap b es c -> bq_steps esz cap a (e :: es) c.

Definition bq_init : list (list N) * (nat -> bstat) := ([], fun _ => BIdle).


(** ** Remote procedure calls *)

(** The state of a call: none; about to panic because it cannot be sent; sent, not served;
    answered; served without an answer. *)
Inductive rphase :=
| PIdle | PBad | PReq (id : N) (data_in data_out : list (list N)) | PRep (data_out : list (list N)) (reply : list N)
| PLost (data_out : list (list N)).

(** The buffers for the answer. *)
Definition out_bufs (p : rphase) : option (list (list N)) :=
  match p with PIdle | PBad => None | PReq _ _ o | PRep o _ | PLost o => Some o end.

(** The limits of a message: six slices and, with the 4 bytes of the header, one queue entry. *)
Definition fits (data : list (list N)) : Prop :=
  length data <= 6 /\ (4 + N.of_nat (length (concat data)) <= 8192)%N.

(** What a handler sees of a request: its type, its length, and a buffer of 8192 bytes that
    begins with the payload. *)
Definition request_of (id : N) (data_in : list (list N)) (h : rpchdr) (buf : list N) : Prop :=
  r_type h = id /\ r_len h = N.of_nat (length (concat data_in)) /\
  N.of_nat (length buf) = 8192%N /\ take (length (concat data_in)) buf = concat data_in.

(** A call and what the server and the client observe, for the handlers [tbl].  [st] is the
    state of the handlers; the booleans say that the client and the server have panicked. *)
Inductive rp_step {St} (tbl : gmap N (handler St))
  : St * rphase * bool * bool -> yev -> St * rphase * bool * bool -> Prop :=
| RP_call st d id din dout : fits din ->
    rp_step tbl (st, PIdle, false, d) (VCall id din dout) (st, PReq id din dout, false, d)
| RP_call_bad st d id din dout : ~ fits din ->
    rp_step tbl (st, PIdle, false, d) (VCall id din dout) (st, PBad, false, d)
| RP_bad st d : rp_step tbl (st, PBad, false, d) VClientPanic (st, PIdle, true, d)
| RP_serve st id din dout c f h buf st' h' d' e : tbl !! id = Some f -> request_of id din h buf ->
    f st h buf = (st', inl (h', d')) -> (4 + r_len h' <= 8192)%N ->
    e = VHandle (ROkay tt) \/ e = VTry (ROkay true) ->
    rp_step tbl (st, PReq id din dout, c, false) e (st', PRep dout (take (N.to_nat (r_len h')) d'), c, false)
| RP_serve_large st id din dout c f h buf st' h' d' e : tbl !! id = Some f -> request_of id din h buf ->
    f st h buf = (st', inl (h', d')) -> (8192 < 4 + r_len h')%N ->
    e = VHandle RPanic \/ e = VTry RPanic ->
    rp_step tbl (st, PReq id din dout, c, false) e (st', PLost dout, c, true)
| RP_serve_fail st id din dout c f h buf st' n e : tbl !! id = Some f -> request_of id din h buf ->
    f st h buf = (st', inr n) ->
    e = VHandle (RErr (HandlerError n)) \/ e = VTry (RErr (HandlerError n)) ->
    rp_step tbl (st, PReq id din dout, c, false) e (st', PLost dout, c, false)
| RP_unknown st id din dout c e : tbl !! id = None ->
    e = VHandle (RErr NoHandlerForRPCType) \/ e = VTry (ROkay false) ->
    rp_step tbl (st, PReq id din dout, c, false) e (st, PLost dout, c, false)
| RP_poll st p c : (forall id din dout, p <> PReq id din dout) ->
    rp_step tbl (st, p, c, false) (VTry (ROkay false)) (st, p, c, false)
| RP_return st d dout dout' r : received dout dout' r -> length dout <= 6 -> length r <= length (concat dout) ->
    rp_step tbl (st, PRep dout r, false, d) (VReturn dout') (st, PIdle, false, d)
| RP_return_large st d dout r : length (concat dout) < length r ->
    rp_step tbl (st, PRep dout r, false, d) VClientPanic (st, PRep dout r, true, d)
| RP_return_slices st d p dout : out_bufs p = Some dout -> 6 < length dout ->
    rp_step tbl (st, p, false, d) VClientPanic (st, p, true, d).

Inductive rp_steps {St} (tbl : gmap N (handler St))
  : St * rphase * bool * bool -> list yev -> St * rphase * bool * bool -> Prop :=
| RPS_nil a : rp_steps tbl a [] a
| RPS_cons a e b es c : rp_step tbl a e b -> rp_steps tbl b es c -> rp_steps tbl a (e :: es) c.

(** A handler as Rust's types have it: the buffer keeps its length, header fields stay in
    their types. *)
Definition handler_typed {St} (f : handler St) : Prop := forall st h buf st' h' d',
  f st h buf = (st', inl (h', d')) ->
  length d' = length buf /\ (r_id h' < 256 /\ r_type h' < 256 /\ r_len h' < 65536)%N.

(** A procedure: from the state and the bytes of a request, the new state and the bytes of the
    reply or an error.  A handler implements a procedure if it looks at nothing but the bytes of
    the request. *)
Definition procedure (St : Type) : Type := St -> list N -> St * (list N + nat).
Definition implements {St} (f : handler St) (g : procedure St) : Prop :=
  forall st h buf, N.of_nat (length buf) = 8192%N -> (r_len h <= 8192)%N ->
  match g st (take (N.to_nat (r_len h)) buf) with
  | (st', inl r) => exists h' d', f st h buf = (st', inl (h', d')) /\
      r_len h' = N.of_nat (length r) /\ take (length r) d' = r
  | (st', inr n) => f st h buf = (st', inr n)
  end.

(** Remote calls as calls of procedures: the reply is what the procedure of the type gives for
    the bytes sent. *)
Inductive pc_step {St} (tbl : gmap N (procedure St))
  : St * rphase * bool * bool -> yev -> St * rphase * bool * bool -> Prop :=
| PC_call st d id din dout : fits din ->
    pc_step tbl (st, PIdle, false, d) (VCall id din dout) (st, PReq id din dout, false, d)
| PC_call_bad st d id din dout : ~ fits din ->
    pc_step tbl (st, PIdle, false, d) (VCall id din dout) (st, PBad, false, d)
| PC_bad st d : pc_step tbl (st, PBad, false, d) VClientPanic (st, PIdle, true, d)
| PC_serve st id din dout c g st' r e : tbl !! id = Some g ->
    g st (concat din) = (st', inl r) -> (4 + N.of_nat (length r) <= 8192)%N ->
    e = VHandle (ROkay tt) \/ e = VTry (ROkay true) ->
    pc_step tbl (st, PReq id din dout, c, false) e (st', PRep dout r, c, false)
| PC_serve_large st id din dout c g st' r e : tbl !! id = Some g ->
    g st (concat din) = (st', inl r) -> (8192 < 4 + N.of_nat (length r))%N ->
    e = VHandle RPanic \/ e = VTry RPanic ->
    pc_step tbl (st, PReq id din dout, c, false) e (st', PLost dout, c, true)
| PC_serve_fail st id din dout c g st' n e : tbl !! id = Some g ->
    g st (concat din) = (st', inr n) ->
    e = VHandle (RErr (HandlerError n)) \/ e = VTry (RErr (HandlerError n)) ->
    pc_step tbl (st, PReq id din dout, c, false) e (st', PLost dout, c, false)
| PC_unknown st id din dout c e : tbl !! id = None ->
    e = VHandle (RErr NoHandlerForRPCType) \/ e = VTry (ROkay false) ->
    pc_step tbl (st, PReq id din dout, c, false) e (st, PLost dout, c, false)
| PC_poll st p c : (forall id din dout, p <> PReq id din dout) ->
    pc_step tbl (st, p, c, false) (VTry (ROkay false)) (st, p, c, false)
| PC_return st d dout dout' r : received dout dout' r -> length dout <= 6 -> length r <= length (concat dout) ->
    pc_step tbl (st, PRep dout r, false, d) (VReturn dout') (st, PIdle, false, d)
| PC_return_large st d dout r : length (concat dout) < length r ->
    pc_step tbl (st, PRep dout r, false, d) VClientPanic (st, PRep dout r, true, d)
| PC_return_slices st d p dout : out_bufs p = Some dout -> 6 < length dout ->
    pc_step tbl (st, p, false, d) VClientPanic (st, p, true, d).
Inductive pc_steps {St} (tbl : gmap N (procedure St))
  : St * rphase * bool * bool -> list yev -> St * rphase * bool * bool -> Prop :=
| PCS_nil a : pc_steps tbl a [] a
| PCS_cons a e b es c : pc_step tbl a e b -> pc_steps tbl b es c -> pc_steps tbl a (e :: es) c.
