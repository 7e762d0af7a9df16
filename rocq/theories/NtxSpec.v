(** Specification of a transmit queue of a network card. *)
From Verif Require Import Base NtxModel.

(** Chains accepted and not yet sent, sent, and known to be sent; oldest first. *)
Record nicq := mkNic { n_wait : list tchain; n_sent : list tchain; n_ready : list tchain }.
Definition nic_init : nicq := mkNic [] [] [].

(** Descriptors in use. *)
Definition segments (l : list tchain) : nat := foldr (fun c n => length c.1 + n) 0 l.

(** The ring has [cap] descriptors; one stays free.  A packet goes on the wire as the segments
    of the oldest chain waiting.  A chain is given back after it was sent, each once, in order. *)
Inductive nic_step (cap : nat) : nicq -> txev -> nicq -> Prop :=
| NQ_accept w s r c : segments w + segments s + length c.1 < cap ->
    nic_step cap (mkNic w s r) (XvEnq c true) (mkNic (w ++ [c]) s r)
| NQ_refuse w s r c : cap <= segments w + segments s + length c.1 ->
    nic_step cap (mkNic w s r) (XvEnq c false) (mkNic w s r)
| NQ_flush n : nic_step cap n XvFlush n
| NQ_wire w s r c : nic_step cap (mkNic (c :: w) s r) (XvWire c.1) (mkNic w (s ++ [c]) r)
| NQ_can w s s' r exact : (exact = false -> length s <= 1) ->
    nic_step cap (mkNic w (s ++ s') r) (XvCan exact (length s)) (mkNic w s' (r ++ s))
| NQ_deq w s r c : nic_step cap (mkNic w s (c :: r)) (XvDeq (Some c)) (mkNic w s r)
| NQ_deq_sent w s c : nic_step cap (mkNic w (c :: s) []) (XvDeq (Some c)) (mkNic w s [])
| NQ_deq_none w s : nic_step cap (mkNic w s []) (XvDeq None) (mkNic w s []).

Inductive nic_steps (cap : nat) : nicq -> list txev -> nicq -> Prop :=
| NQS_nil n : nic_steps cap n [] n
| NQS_cons a e b es c : nic_step cap a e b -> nic_steps cap b es c -> nic_steps cap a (e :: es) c.

(** Chains the queue is made for: 1 to 32 segments of 1 to 16384 bytes. *)
Definition chain_ok (c : tchain) : Prop :=
  1 <= length c.1 <= 32 /\ Forall (fun s : tseg => (1 <= s.2 <= 16384)%N) c.1.
Definition act_ok (a : txact) : Prop := match a with XEnq c => chain_ok c | _ => True end.
(** The steps that are not calls. *)
Definition x_internal (a : txact) : Prop := match a with XStep | XPop | XSleep | XComp => True | _ => False end.

(** Every call that enqueues is followed by a flush before the next one. *)
Fixpoint flushes (unflushed : bool) (l : list txact) : Prop :=
  match l with
  | [] => True
  | XEnq _ :: l => unflushed = false /\ flushes true l
  | XFlush :: l => flushes false l
  | _ :: l => flushes unflushed l
  end.
