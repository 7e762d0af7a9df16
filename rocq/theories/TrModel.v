(** Remote procedure calls over TCP: Client and Server (lib/rpc/src/client.rs, server.rs) on
    the two directions of a connection (TcpModel). *)
From Verif Require Import Base RpcModel TcpModel.

(** The client: outside [call]; in [send_msg] of a call with the buffers for the answer
    (client.rs:41); in [recv_msg] (client.rs:44); panicked. *)
Inductive zcl := ZcIdle | ZcSend (dout : list (list N)) | ZcRecv | ZcDead.
(** The server: outside; in [receive] or [try_receive] (server.rs:114-133); in [reply]
    (server.rs:135-139); panicked. *)
Inductive zsv := ZsIdle | ZsRecv (try : bool) | ZsReply | ZsDead.

Record zsys (St : Type) := mkZs {
  z_up : tdir; z_down : tdir; z_cl : zcl; z_hdr : rpchdr; z_srv : server St; z_sv : zsv }.
Arguments mkZs {St}. Arguments z_up {St}. Arguments z_down {St}. Arguments z_cl {St}.
Arguments z_hdr {St}. Arguments z_srv {St}. Arguments z_sv {St}.

(** Client::new and a server on a fresh connection. *)
Definition zs_init {St} (s : server St) : zsys St := mkZs td_init td_init ZcIdle (mkHdr 0 0 0) s ZsIdle.

(** What is seen: calls, returns and what the server did with a request, as in [yev]; besides,
    a call or the server's function that ends with Err(InternalError).  VHandle and VTry are
    shown when the handler has run, before the reply has been sent. *)
Inductive zev := ZvY (e : yev) | ZvCallErr | ZvServerErr.

(** A call; the server runs handle or try_handle; a step of the direction from the client to
    the server, or of the other one. *)
Inductive zact :=
| ZCall (id : N) (data_in data_out : list (list N)) | ZServe (try : bool) | ZUp (a : tact) | ZDown (a : tact).

Definition z_internal (a : tact) : bool := match a with TSend _ _ _ | TRecv _ _ => false | _ => true end.

(** What handle (server.rs:72-85) or try_handle (server.rs:88-104) shows for the result of the
    handler. *)
Definition z_served (try : bool) (r : rres unit) : zev :=
  ZvY (if try then VTry match r with
                        | ROkay _ => ROkay true
                        | RErr NoHandlerForRPCType => ROkay false
                        | RErr e => RErr e | RPanic => RPanic | RBlocks => RBlocks
                        end
       else VHandle r).

(** handle and try_handle once the request [h], [data] is there: the handler and the beginning
    of the reply. *)
Definition z_handle {St} (txc rxc : nat) (try : bool) (y : zsys St) (up : tdir) (h : rpchdr) (data : list N)
  : option (zsys St * list zev) :=
  let 'mkZs _ down cl hdr srv _ := y in
  match sv_handlers srv !! r_type h with
  | None =>
      Some (mkZs up down cl hdr (mkServer (sv_st srv) (sv_handlers srv) h data) ZsIdle,
            [z_served try (RErr NoHandlerForRPCType)])
  | Some func =>
      match func (sv_st srv) h data with
      | (st', inl (h', d')) =>
          let srv' := mkServer st' (sv_handlers srv) h' d' in
          if N.to_nat (r_len h') <=? length d' then                           (* server.rs:138 *)
            match t_step txc rxc down (TSend false h' [take (N.to_nat (r_len h')) d']) with
            | Some (down', _) => Some (mkZs up down' cl hdr srv' ZsReply, [z_served try (ROkay tt)])
            | None => None
            end
          else Some (mkZs up down cl hdr srv' ZsDead, [z_served try RPanic])
      | (st', inr e) =>
          Some (mkZs up down cl hdr (mkServer st' (sv_handlers srv) h data) ZsIdle,
                [z_served try (RErr (HandlerError e))])
      end
  end.

Definition z_step {St} (txc rxc : nat) (y : zsys St) (a : zact) : option (zsys St * list zev) :=
  let 'mkZs up down cl hdr srv sv := y in
  match a with
  | ZCall id din dout =>                                                      (* client.rs:28-41 *)
      match cl with
      | ZcIdle =>
          if (N.of_nat (total_len din) <? 65535)%N then
            let h := mkHdr (r_id hdr) id (as_u16 (total_len din)) in
            match t_step txc rxc up (TSend false h din) with
            | Some (up', _) => Some (mkZs up' down (ZcSend dout) h srv sv, [ZvY (VCall id din dout)])
            | None => None
            end
          else Some (mkZs up down ZcDead hdr srv sv, [ZvY (VCall id din dout); ZvY VClientPanic])
      | _ => None
      end
  | ZServe try =>                                                             (* server.rs:114-133 *)
      match sv with
      | ZsIdle =>
          match t_step txc rxc up (TRecv try [sv_data srv]) with
          | Some (up', _) => Some (mkZs up' down cl hdr srv (ZsRecv try), [])
          | None => None
          end
      | _ => None
      end
  | ZUp a =>
      if z_internal a then
        match t_step txc rxc up a with
        | Some (up', []) => Some (mkZs up' down cl hdr srv sv, [])
        | Some (up', [TvSent _]) =>                                           (* client.rs:44 *)
            match cl with
            | ZcSend dout =>
                match t_step txc rxc down (TRecv false dout) with
                | Some (down', _) => Some (mkZs up' down' ZcRecv hdr srv sv, [])
                | None => None
                end
            | _ => None
            end
        | Some (up', [TvGot r]) =>
            match sv, r with
            | ZsRecv try, GNone => Some (mkZs up' down cl hdr srv ZsIdle, [ZvY (VTry (ROkay false))])
            | ZsRecv try, GErr h =>
                Some (mkZs up' down cl hdr (mkServer (sv_st srv) (sv_handlers srv) h (sv_data srv)) ZsIdle, [ZvServerErr])
            | ZsRecv try, GMsg h [data] => z_handle txc rxc try y up' h data
            | _, _ => None
            end
        | _ => None
        end
      else None
  | ZDown a =>
      if z_internal a then
        match t_step txc rxc down a with
        | Some (down', []) => Some (mkZs up down' cl hdr srv sv, [])
        | Some (down', [TvSent _]) =>
            match sv with ZsReply => Some (mkZs up down' cl hdr srv ZsIdle, []) | _ => None end
        | Some (down', [TvGot r]) =>                                          (* client.rs:44-45 *)
            match cl, r with
            | ZcRecv, GMsg h dout => Some (mkZs up down' ZcIdle h srv sv, [ZvY (VReturn dout)])
            | ZcRecv, GErr h => Some (mkZs up down' ZcIdle h srv sv, [ZvCallErr])
            | _, _ => None
            end
        | _ => None
        end
      else None
  end.

Fixpoint z_run {St} (txc rxc : nat) (y : zsys St) (l : list zact) : option (zsys St * list zev) :=
  match l with
  | [] => Some (y, [])
  | a :: l =>
      match z_step txc rxc y a with
      | Some (y1, e1) =>
          match z_run txc rxc y1 l with Some (y2, e2) => Some (y2, e1 ++ e2) | None => None end
      | None => None
      end
  end.
