(** Specification of a receive queue of a network card. *)
From Verif Require Import Base NrxModel.

(** Chains the card may fill, oldest first; whether an enqueue has not returned yet; and
    chains filled: with the packet, and whether it was taken whole. *)
Record rxs := mkRxs { s_free : list rchain; s_busy : bool; s_got : list (rchain * list N * bool) }.
Definition rxs_init : rxs := mkRxs [] false [].

(** Bytes a chain has room for. *)
Definition room (c : rchain) : nat := foldr (fun s n => N.to_nat s.2 + n) 0 c.
Definition first_room (c : rchain) : nat := match c with s :: _ => N.to_nat s.2 | [] => 0 end.

(** A packet comes back in the buffers of its chain; a wrong one as an empty chain. *)
Definition delivered (c : rchain) (p : list N) (ok : bool) (r : rxgot) : Prop :=
  map fst (g_segs r) = map fst c /\
  if ok then g_data r = p /\ g_total r = length p /\ room (take (g_frags r) (g_segs r)) = length p
  else g_data r = [] /\ room (g_segs r) = 0.

Inductive rxs_step : rxs -> rxev -> rxs -> Prop :=
| RS_enq f g c : rxs_step (mkRxs f false g) (RvEnq c true) (mkRxs (f ++ [c]) true g)
| RS_refuse f g c : rxs_step (mkRxs f false g) (RvEnq c false) (mkRxs f false g)
| RS_ret f g : rxs_step (mkRxs f true g) RvRet (mkRxs f false g)
| RS_flush f g : rxs_step (mkRxs f false g) RvFlush (mkRxs f false g)
| RS_pkt c f b g p : length p <= room c ->
    rxs_step (mkRxs (c :: f) b g) (RvPkt p true) (mkRxs f b (g ++ [(c, p, true)]))
(** wrong: larger than the chain, or than its first buffer while the enqueue has not returned *)
| RS_bad c f b g p : room c < length p \/ (b = true /\ f = [] /\ first_room c < length p) ->
    rxs_step (mkRxs (c :: f) b g) (RvPkt p false) (mkRxs f b (g ++ [(c, p, false)]))
(** lost: no chain, except one whose enqueue has not returned *)
| RS_lost f b g p : f = [] \/ (b = true /\ length f = 1) ->
    rxs_step (mkRxs f b g) (RvLost p) (mkRxs f b g)
| RS_can f g m (exact : bool) : m = (if exact then length g else Nat.min 1 (length g)) ->
    rxs_step (mkRxs f false g) (RvCan exact m) (mkRxs f false g)
| RS_deq f g c p ok r : delivered c p ok r ->
    rxs_step (mkRxs f false ((c, p, ok) :: g)) (RvDeq (Some r)) (mkRxs f false g)
| RS_empty f : rxs_step (mkRxs f false []) (RvDeq None) (mkRxs f false []).

Inductive rxs_steps : rxs -> list rxev -> rxs -> Prop :=
| RSS_nil s : rxs_steps s [] s
| RSS_cons a e b es c : rxs_step a e b -> rxs_steps b es c -> rxs_steps a (e :: es) c.

(** Chains the queue is made for: two buffers of 1 to 16383 bytes; and packets that are not empty. *)
Definition rchain_ok (c : rchain) : Prop := length c = 2 /\ Forall (fun s : rseg => (1 <= s.2 <= 16383)%N) c.
Definition ract_ok (a : rxact) : Prop :=
  match a with REnq c => rchain_ok c | RPkt p => p <> [] | _ => True end.

(** The user keeps count: chains outstanding use fewer than [n] descriptors, and no
    buffer is given twice.  [out]: chains outstanding. *)
Fixpoint careful (n : nat) (out : list rchain) (es : list rxev) : Prop :=
  match es with
  | [] => True
  | RvEnq c true :: es =>
      2 * S (length out) < n /\ NoDup (map fst c) /\ Forall (fun d => forall a, a ∈ map fst c -> a ∉ map fst d) out /\
      careful n (out ++ [c]) es
  | RvDeq (Some _) :: es => careful n (tail out) es
  | _ :: es => careful n out es
  end.

(** The way the network stack uses the queue (smoltcp.rs:61-115): one chain at a time, and packets that
    fit its first buffer. *)
Fixpoint single (b : nat) (out : nat) (es : list rxev) : Prop :=
  match es with
  | [] => True
  | RvEnq c ok :: es => out = 0 /\ b <= first_room c /\ single b (if ok then 1 else 0) es
  | RvDeq (Some _) :: es => single b (pred out) es
  | RvPkt p _ :: es => length p <= b /\ single b out es
  | _ :: es => single b out es
  end.

(** Packets that arrive in a history, and packets that the card has dealt with. *)
Definition arrived (l : list rxact) : list (list N) := concat (map (fun a => match a with RPkt p => [p] | _ => [] end) l).
Definition dealt (es : list rxev) : list (list N) := concat (map (fun e => match e with RvPkt p _ | RvLost p => [p] | _ => [] end) es).
Definition ticks (l : list rxact) : nat := foldr (fun a n => match a with RTick => S n | _ => n end) 0 l.
