(** Specification of a channel of messages between a sender and a receiver. *)
From Verif Require Import Base RpcModel TcpModel.

(** A message: its header and its payload. *)
Notation tmsg := (rpchdr * list N)%type.

(** The sender: outside a call; in a call, message not on its way; in a call, message on its
    way.  The receiver: outside or inside a call. *)
Inductive csnd := CsIdle | CsWill (try : bool) (m : tmsg) | CsDid.
Inductive crcv := CrIdle | CrIn (try : bool) (bufs : list (list N)).
Notation tchan := (list tmsg * csnd * crcv)%type.

(** [bufs'] is [bufs] with the bytes [p] written over the beginning: lengths are the same,
    the bytes are those of [p] in order, then the old ones. *)
Definition filled (bufs bufs' : list (list N)) (p : list N) : Prop :=
  map length bufs' = map length bufs /\ concat bufs' = p ++ drop (length p) (concat bufs).

(** The channel [q] holds the messages on their way, oldest first.  A message enters it
    during the call that sends it (the silent rule CH_enter), and leaves it by the call
    that returns it.  A try to send that fails sends nothing; a try to receive that fails
    takes nothing.  A receive that fails with an error takes the message. *)
Inductive ch_step : tchan -> option tev -> tchan -> Prop :=
| CH_send q r try h payload :
    ch_step (q, CsIdle, r) (Some (TvSend try h payload)) (q, CsWill try (h, concat payload), r)
| CH_enter q r try m : ch_step (q, CsWill try m, r) None (q ++ [m], CsDid, r)
| CH_sent q r : ch_step (q, CsDid, r) (Some (TvSent true)) (q, CsIdle, r)
| CH_not_sent q r m : ch_step (q, CsWill true m, r) (Some (TvSent false)) (q, CsIdle, r)
| CH_recv q s try bufs : ch_step (q, s, CrIdle) (Some (TvRecv try bufs)) (q, s, CrIn try bufs)
| CH_got q s try bufs h p bufs' : length p <= length (concat bufs) -> filled bufs bufs' p ->
    ch_step ((h, p) :: q, s, CrIn try bufs) (Some (TvGot (GMsg h bufs'))) (q, s, CrIdle)
| CH_none q s bufs : ch_step (q, s, CrIn true bufs) (Some (TvGot GNone)) (q, s, CrIdle)
| CH_too_large q s try bufs h p : length (concat bufs) < length p ->
    ch_step ((h, p) :: q, s, CrIn try bufs) (Some (TvGot (GErr h))) (q, s, CrIdle).

Inductive ch_steps : tchan -> list tev -> tchan -> Prop :=
| CHS_nil a : ch_steps a [] a
| CHS_silent a b es c : ch_step a None b -> ch_steps b es c -> ch_steps a es c
| CHS_cons a e b es c : ch_step a (Some e) b -> ch_steps b es c -> ch_steps a (e :: es) c.
Definition ch_init : tchan := ([], CsIdle, CrIdle).

(** A call to send is proper: the header gives the length of the payload and its fields are in
    their types. *)
Definition hdr_typed (h : rpchdr) : Prop := (r_id h < 256 /\ r_type h < 256 /\ r_len h < 65536)%N.
Definition proper_send (e : tev) : Prop :=
  match e with
  | TvSend _ h payload => hdr_typed h /\ r_len h = N.of_nat (length (concat payload))
  | _ => True
  end.

(** Messages sent and received. *)
Definition count_sent (es : list tev) : nat :=
  length (List.filter (fun e => match e with TvSent true => true | _ => false end) es).
Definition count_got (es : list tev) : nat :=
  length (List.filter (fun e => match e with TvGot (GMsg _ _) => true | _ => false end) es).
Definition no_error (es : list tev) : Prop := forall h, ~ In (TvGot (GErr h)) es.

(** The steps that are not calls. *)
Definition internal (a : tact) : Prop :=
  match a with TSend _ _ _ | TRecv _ _ => False | _ => True end.
(** Bytes of a call to send that are not in the send buffer yet. *)
Definition unsent (s : tsnd) : nat :=
  match s with SdIdle => 0 | SdFirst _ buf rest | SdLoop buf rest => length buf + length (concat rest) end.
