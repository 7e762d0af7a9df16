(** Model of the transmit queue of the network card driver, lib/vmxnet3/src/var.rs:282-526
    (TxQueue and its DevQueue functions), with the card at the other end of its rings.

    A chain is the list of its segments (physical address, length) and its interrupt flag.  The
    bytes of a segment belong to whoever has the chain.  Bits are booleans. *)
From Verif Require Import Base.

Notation tseg := (N * N)%type.
Notation tchain := (list tseg * bool)%type.

(** vmxnet3_txdesc, reg.rs:222-226: the fields that are not constant 0. *)
Record txdesc := mkTxd { x_addr : N; x_len : N; x_gen : bool; x_eop : bool; x_compreq : bool }.
Definition txd_default : txdesc := mkTxd 0 0 false false false.
(** vmxnet3_txcompdesc: eop_idx and gen. *)
Notation txcomp := (nat * bool)%type.

(** [enqueue] in progress: the chain, the segments still to be written, [old_head], [gen]. *)
Record txenq := mkEnq { e_chain : tchain; e_rest : list tseg; e_old : nat; e_gen : bool }.

(** TxQueue, var.rs:282-308; [q_last]: vxtxq_last_flush, None for -1. *)
Record txq := mkTxq {
  q_ring : list txdesc; q_gen : bool; q_comp : list txcomp; q_cnext : nat; q_cgen : bool;
  q_tail : nat; q_head : nat; q_last : option nat;
  q_infl : list (nat * tchain); q_proc : list tchain; q_enq : option txenq }.

(** TxQueue::new, var.rs:311-340; VMXNET3_INIT_GEN is 1. *)
Definition tx_new (ndesc : nat) : txq :=
  mkTxq (replicate ndesc txd_default) true (replicate ndesc (0, false)) 0 true 0 0 None [] [] None.
Definition VMXNET3_DEF_TX_NDESC : nat := 512.
Definition VMXNET3_TX_MAXSEGS : nat := 32.

(** [wrapping_sub] on usize. *)
Definition wrapping_sub (a b : nat) : N := ((N.of_nat a + 2 ^ 64 - N.of_nat b) mod 2 ^ 64)%N.
(** count, var.rs:366-371. *)
Definition count (tail head size : nat) : nat :=
  N.to_nat (N.land (wrapping_sub head tail) (N.of_nat (size - 1))).
(** capacity, len, var.rs:342-351. *)
Definition tx_capacity (q : txq) : nat := length (q_ring q).
Definition tx_len (q : txq) : nat := count (q_tail q) (q_head q) (tx_capacity q).
(** can_enqueue, var.rs:464-466. *)
Definition tx_can_enqueue (q : txq) (segs : nat) : bool := segs <? tx_capacity q - tx_len q.

(** What the user of the queue sees; and packets on the wire. *)
Inductive txev :=
| XvEnq (c : tchain) (ok : bool) | XvFlush | XvCan (exact : bool) (n : nat) | XvDeq (c : option tchain)
| XvPanic | XvWire (p : list tseg).

(** [enqueue] up to the loop, var.rs:376-391. *)
Definition tx_enq_start (q : txq) (c : tchain) : txq * list txev :=
  if length c.1 <=? VMXNET3_TX_MAXSEGS then
    if (tx_capacity q - 1) - tx_len q <? length c.1 then (q, [XvEnq c false])
    else (mkTxq (q_ring q) (q_gen q) (q_comp q) (q_cnext q) (q_cgen q) (q_tail q) (q_head q) (q_last q)
            (q_infl q) (q_proc q) (Some (mkEnq c c.1 (q_head q) (negb (q_gen q)))), [])
  else (q, [XvPanic]).

(** One round of the loop, var.rs:394-428, or what follows it, var.rs:433-443.  The bit field
    of the length has 14 bits. *)
Definition tx_enq_step (q : txq) : option (txq * list txev) :=
  match q_enq q with
  | None => None
  | Some (mkEnq c rest old gen) =>
      let ndesc := length (q_ring q) in
      match rest with
      | (addr, len) :: rest' =>
          if ndesc - count (q_tail q) (q_head q) ndesc =? 1 then Some (q, [XvPanic])
          else
            let last := match rest' with [] => true | _ => false end in
            let txd := mkTxd addr (len mod 2 ^ 14)%N gen last (last && c.2) in
            let ring' := <[q_head q := txd]> (q_ring q) in
            let wrap := S (q_head q) =? ndesc in
            let head' := if wrap then 0 else S (q_head q) in
            let gen' := if wrap then negb (q_gen q) else q_gen q in
            Some (mkTxq ring' gen' (q_comp q) (q_cnext q) (q_cgen q) (q_tail q) head' (q_last q)
                    (q_infl q) (q_proc q) (Some (mkEnq c rest' old gen')), [])
      | [] =>
          let ring' := alter (fun d => mkTxd (x_addr d) (x_len d) (negb (x_gen d)) (x_eop d) (x_compreq d))
                         old (q_ring q) in
          let eop := N.to_nat (wrapping_sub (q_head q) 1 mod N.of_nat ndesc)%N in
          Some (mkTxq ring' (q_gen q) (q_comp q) (q_cnext q) (q_cgen q) (q_tail q) (q_head q) (q_last q)
                  (q_infl q ++ [(eop, c)]) (q_proc q) None, [XvEnq c true])
      end
  end.

(** [flush], var.rs:449-462; the second component: the register is written. *)
Definition tx_flush (q : txq) : txq * bool :=
  if decide (q_last q = Some (q_head q)) then (q, false)
  else (mkTxq (q_ring q) (q_gen q) (q_comp q) (q_cnext q) (q_cgen q) (q_tail q) (q_head q) (Some (q_head q))
          (q_infl q) (q_proc q) (q_enq q), true).

(** The loop of [can_dequeue], var.rs:490-525; None is a panic (or, with too little fuel, more
    rounds). *)
Fixpoint tx_collect (fuel : nat) (exact : bool) (q : txq) (processed : nat) : option (txq * nat) :=
  match q_comp q !! q_cnext q with
  | None => None
  | Some (eop, g) =>
      if eqb g (q_cgen q) then
        match fuel, q_infl q with
        | S fuel, (idx, c) :: infl' =>
            if idx =? eop then
              let wrap := S (q_cnext q) =? length (q_comp q) in
              let q' := mkTxq (q_ring q) (q_gen q) (q_comp q) (if wrap then 0 else S (q_cnext q))
                          (if wrap then negb (q_cgen q) else q_cgen q) (S eop mod length (q_ring q)) (q_head q)
                          (q_last q) infl' (q_proc q ++ [c]) (q_enq q) in
              if exact then tx_collect fuel exact q' (S processed) else Some (q', S processed)
            else None
        | _, _ => None
        end
      else Some (q, processed)
  end.
Definition tx_can_dequeue (q : txq) (exact : bool) : option (txq * nat) :=
  tx_collect (S (length (q_comp q))) exact q 0.

(** [dequeue], var.rs:468-478. *)
Definition tx_pop (q : txq) : txq * option tchain :=
  match q_proc q with
  | [] => (q, None)
  | c :: proc => (mkTxq (q_ring q) (q_gen q) (q_comp q) (q_cnext q) (q_cgen q) (q_tail q) (q_head q) (q_last q)
                    (q_infl q) proc (q_enq q), Some c)
  end.
Definition tx_dequeue (q : txq) : option (txq * option tchain) :=
  match q_proc q with
  | _ :: _ => Some (tx_pop q)
  | [] => match tx_can_dequeue q false with
          | Some (q', n) => if 1 <=? n then Some (tx_pop q') else Some (q', None)
          | None => None
          end
  end.

(** The card (not in /repo; as the device emulated by QEMU): it takes descriptors in order as
    long as their generation is the one of its round, sends a packet at a descriptor marked eop,
    and writes a completion for each packet, in order.  It works after the register was
    written until it finds no descriptor.  A length of 0 stands for 2^14. *)
Record txdev := mkDev {
  v_next : nat; v_gen : bool; v_acc : list tseg; v_pend : list nat; v_cnext : nat; v_cgen : bool; v_bell : bool }.
Definition dev_new : txdev := mkDev 0 true [] [] 0 true false.
Definition dev_len (l : N) : N := if (l =? 0)%N then 2 ^ 14 else l.

Inductive txact := XEnq (c : tchain) | XStep | XFlush | XCan (exact : bool) | XDeq | XPop | XSleep | XComp.

Definition dev_fetch (q : txq) (v : txdev) : option txdesc :=
  match q_ring q !! v_next v with
  | Some d => if eqb (x_gen d) (v_gen v) then Some d else None
  | None => None
  end.
Definition dev_step (q : txq) (v : txdev) (a : txact) : option (txq * txdev * list txev) :=
  match a with
  | XPop =>
      if v_bell v then
        match dev_fetch q v with
        | Some d =>
            let wrap := S (v_next v) =? length (q_ring q) in
            let next' := if wrap then 0 else S (v_next v) in
            let gen' := if wrap then negb (v_gen v) else v_gen v in
            let acc' := v_acc v ++ [(x_addr d, dev_len (x_len d))] in
            if x_eop d then Some (q, mkDev next' gen' [] (v_pend v ++ [v_next v]) (v_cnext v) (v_cgen v) true, [XvWire acc'])
            else Some (q, mkDev next' gen' acc' (v_pend v) (v_cnext v) (v_cgen v) true, [])
        | None => None
        end
      else None
  | XSleep =>
      if v_bell v then
        match dev_fetch q v with
        | Some _ => None
        | None => Some (q, mkDev (v_next v) (v_gen v) (v_acc v) (v_pend v) (v_cnext v) (v_cgen v) false, [])
        end
      else None
  | XComp =>
      match v_pend v with
      | [] => None
      | eop :: pend =>
          let wrap := S (v_cnext v) =? length (q_comp q) in
          Some (mkTxq (q_ring q) (q_gen q) (<[v_cnext v := (eop, v_cgen v)]> (q_comp q)) (q_cnext q) (q_cgen q) (q_tail q)
                  (q_head q) (q_last q) (q_infl q) (q_proc q) (q_enq q),
                mkDev (v_next v) (v_gen v) (v_acc v) pend (if wrap then 0 else S (v_cnext v))
                  (if wrap then negb (v_cgen v) else v_cgen v) (v_bell v), [])
      end
  | _ => None
  end.

(** One step of the user, of [enqueue] or of the card.  While [enqueue] runs the user does
    nothing else. *)
Definition x_step (s : txq * txdev) (a : txact) : option (txq * txdev * list txev) :=
  let '(q, v) := s in
  match a with
  | XPop | XSleep | XComp => dev_step q v a
  | XStep => match tx_enq_step q with Some (q', e) => Some (q', v, e) | None => None end
  | _ =>
      match q_enq q with
      | Some _ => None
      | None =>
          match a with
          | XEnq c => let '(q', e) := tx_enq_start q c in Some (q', v, e)
          | XFlush =>
              let '(q', bell) := tx_flush q in
              Some (q', mkDev (v_next v) (v_gen v) (v_acc v) (v_pend v) (v_cnext v) (v_cgen v) (v_bell v || bell), [XvFlush])
          | XCan exact =>
              match tx_can_dequeue q exact with
              | Some (q', n) => Some (q', v, [XvCan exact n])
              | None => Some (q, v, [XvPanic])
              end
          | XDeq =>
              match tx_dequeue q with
              | Some (q', c) => Some (q', v, [XvDeq c])
              | None => Some (q, v, [XvPanic])
              end
          | _ => None
          end
      end
  end.

Fixpoint x_run (s : txq * txdev) (l : list txact) : option (txq * txdev * list txev) :=
  match l with
  | [] => Some (s, [])
  | a :: l =>
      match x_step s a with
      | Some (s1, e1) => match x_run s1 l with Some (s2, e2) => Some (s2, e1 ++ e2) | None => None end
      | None => None
      end
  end.
