(** Model of the receive queue of the network card driver, lib/vmxnet3/src/var.rs:532-914
    (RxQueue and its DevQueue functions), with the card at the other end of its rings.

    A chain is the list of its segments (physical address, length).  Only command ring 0 is in use;
    [vxrxr_refill_start] always equals [pidx_head0] and is left out.  Checksum, VLAN and RSS
    fields of a chain are left out. *)
From Verif Require Import Base.

Notation rseg := (N * N)%type.
Notation rchain := (list rseg).

(** vmxnet3_rxdesc: addr, len (14 bits), btype, gen. *)
Record rxdesc := mkRxd { r_addr : N; r_len : N; r_body : bool; r_gen : bool }.
Definition rxd_default : rxdesc := mkRxd 0 0 false false.
(** vmxnet3_rxcompdesc: rxd_idx, len, sop, eop, error, gen. *)
Record rxcomp := mkRxc { c_idx : nat; c_len : N; c_sop : bool; c_eop : bool; c_err : bool; c_gen : bool }.
Definition rxc_default : rxcomp := mkRxc 0 0 false false false false.

(** RxQueue, var.rs:532-560.  [k_enq]: an [enqueue] in progress, the chain, the segments still to
    be written and [i] of the loop. *)
Record rxq := mkRxq {
  k_ring : list rxdesc; k_gen : bool; k_comp : list rxcomp; k_cgen : bool; k_tail : nat; k_head : nat;
  k_infl : list rchain; k_enq : option (rchain * list rseg * nat) }.

(** RxQueue::new, var.rs:563-592; VMXNET3_INIT_GEN is 1. *)
Definition rx_new (ndesc : nat) : rxq :=
  mkRxq (replicate ndesc rxd_default) true (replicate ndesc rxc_default) true 0 0 [] None.

(** len, capacity, var.rs:594-604. *)
Definition rx_len (q : rxq) : nat :=
  if k_tail q <? k_head q then k_head q - k_tail q else k_tail q - k_head q.
Definition rx_capacity (q : rxq) : nat := length (k_ring q).

(** What [dequeue] gives: the segments, total length and number of fragments of set_meta_data, and
    the bytes in those fragments. *)
Record rxgot := mkGot { g_segs : list rseg; g_total : nat; g_frags : nat; g_data : list N }.
(** What the user of the queue sees; and packets that the card took ([ok]: whole) or lost. *)
Inductive rxev :=
| RvEnq (c : rchain) (ok : bool) | RvRet | RvFlush | RvCan (exact : bool) (m : nat) | RvDeq (r : option rxgot)
| RvPanic | RvPkt (p : list N) (ok : bool) | RvLost (p : list N).

(** [enqueue] up to the loop, var.rs:625-650. *)
Definition rx_enq_start (q : rxq) (c : rchain) : rxq * list rxev :=
  if rx_capacity q - rx_len q <? length c then (q, [RvEnq c false])
  else if length c =? 2 then
    (mkRxq (k_ring q) (k_gen q) (k_comp q) (k_cgen q) (k_tail q) (k_head q) (k_infl q) (Some (c, c, 0)), [RvEnq c true])
  else (q, [RvPanic]).

(** One round of the loop, var.rs:651-670, or what follows it, var.rs:672-679 (the index stored
    with the chain is not used). *)
Definition rx_enq_step (q : rxq) : option (rxq * list rxev) :=
  match k_enq q with
  | None => None
  | Some (c, (addr, len) :: rest, i) =>
      let rxd := mkRxd addr (len mod 2 ^ 14)%N (negb (Nat.even i)) (k_gen q) in
      let wrap := S (k_head q) =? length (k_ring q) in
      Some (mkRxq (<[k_head q := rxd]> (k_ring q)) (if wrap then negb (k_gen q) else k_gen q) (k_comp q) (k_cgen q)
              (k_tail q) (if wrap then 0 else S (k_head q)) (k_infl q) (Some (c, rest, S i)), [])
  | Some (c, [], i) =>
      Some (mkRxq (k_ring q) (k_gen q) (k_comp q) (k_cgen q) (k_tail q) (k_head q) (k_infl q ++ [c]) None, [RvRet])
  end.

(** can_enqueue, var.rs:697-699. *)
Definition rx_can_enqueue (q : rxq) (segs : nat) : bool := segs <? (rx_capacity q - 1) - rx_len q.

(** VMXNET3_MAX_RX_NDESC, var.rs:43. *)
Definition VMXNET3_MAX_RX_NDESC : nat := N.to_nat 2048.

(** The loop of [can_dequeue], var.rs:872-913, with its debug assertions; None is a panic. *)
Fixpoint rx_scan (fuel budget : nat) (comp : list rxcomp) (idx : nat) (g expect_sop : bool) (available : nat) : option nat :=
  match fuel with
  | 0 => None
  | S fuel =>
      match comp !! idx with
      | None => None
      | Some e =>
          if eqb (c_gen e) g then
            if eqb (c_sop e) expect_sop then
              let available := if c_eop e && negb (c_len e =? 0)%N then S available else available in
              if budget <=? available then Some available
              else
                let wrap := S idx =? length comp in
                rx_scan fuel budget comp (if wrap then 0 else S idx) (if wrap then negb g else g) (c_eop e) available
            else None
          else Some available
      end
  end.
Definition rx_can_dequeue (q : rxq) (exact : bool) : option nat :=
  rx_scan (S (2 * length (k_comp q))) (if exact then VMXNET3_MAX_RX_NDESC else 1) (k_comp q) (k_tail q) (k_cgen q) true 0.

Definition rx_advance (q : rxq) : rxq :=
  let wrap := S (k_tail q) =? length (k_comp q) in
  mkRxq (k_ring q) (k_gen q) (k_comp q) (if wrap then negb (k_cgen q) else k_cgen q) (if wrap then 0 else S (k_tail q))
    (k_head q) (k_infl q) (k_enq q).

(** The loop over zero-length entries, var.rs:719-733. *)
Fixpoint rx_skip (fuel : nat) (q : rxq) : option rxq :=
  match fuel with
  | 0 => None
  | S fuel =>
      match k_comp q !! k_tail q with
      | None => None
      | Some e => if (c_len e =? 0)%N then (if c_eop e && c_sop e then rx_skip fuel (rx_advance q) else None) else Some q
      end
  end.

(** The loop over the fragments, var.rs:799-842: the segments before [nfrags] are in [before]. *)
Fixpoint rx_frags (fuel : nat) (q : rxq) (before after : list rseg) (total : nat)
  : option (rxq * list rseg * nat * nat * rxcomp) :=
  match fuel with
  | 0 => None
  | S fuel =>
      match k_comp q !! k_tail q with
      | None => None
      | Some e =>
          if eqb (c_gen e) (k_cgen q) && (c_idx e <? length (k_ring q)) then
            match after with
            | [] => None
            | (addr, len) :: after' =>
                if (c_len e <=? len)%N then
                  let before' := before ++ [(addr, c_len e)] in
                  let total' := total + N.to_nat (c_len e) in
                  if c_eop e then Some (rx_advance q, before' ++ after', length before', total', e)
                  else rx_frags fuel (rx_advance q) before' after' total'
                else None
            end
          else None
      end
  end.

(** Bytes in the buffers, by their address (buffers with different addresses do not overlap). *)
Notation rxmem := (list (N * list N)).
Fixpoint mem_read (m : rxmem) (a : N) : list N :=
  match m with
  | [] => []
  | (b, x) :: m => if (a =? b)%N then x else mem_read m a
  end.

(** [dequeue], var.rs:701-870. *)
Definition rx_dequeue (q : rxq) (m : rxmem) : option (rxq * option rxgot) :=
  match rx_can_dequeue q false with
  | None => None
  | Some 0 => Some (q, None)
  | Some _ =>
      match rx_skip (S (2 * length (k_comp q))) q with
      | None => None
      | Some q1 =>
          match k_comp q1 !! k_tail q1, k_infl q1 with
          | Some e0, c :: infl =>
              if c_sop e0 then
                match rx_frags (S (length c)) q1 [] c 0 with
                | Some (q2, segs, nfrags, total, e) =>
                    let q3 := mkRxq (k_ring q2) (k_gen q2) (k_comp q2) (k_cgen q2) (k_tail q2) (k_head q2) infl (k_enq q2) in
                    let segs' := if c_err e then map (fun s : rseg => (s.1, 0%N)) segs else segs in
                    Some (q3, Some (mkGot segs' total nfrags
                                      (concat (map (fun s : rseg => take (N.to_nat s.2) (mem_read m s.1)) (take nfrags segs')))))
                | None => None
                end
              else None
          | _, _ => None
          end
      end
  end.

(** The card (not in /repo; as the device emulated by QEMU).  For a packet it looks for the next
    head descriptor, passing over body descriptors; a packet that does not fit goes on into the
    following body descriptor; what does not fit then is left out and the packet marked as
    wrong.  A completion is written when the next descriptor is taken or the packet ends.
    Without a head descriptor the packet is lost.
    [d_cur]: looking for a head for the packet, or filling: packet, rest, completion to be written. *)
Inductive rxcur := CSeek (p : list N) | CFill (p rest : list N) (idx : nat) (len : N) (sop : bool).
Record rxdev := mkRdev { d_next : nat; d_gen : bool; d_cur : option rxcur; d_cnext : nat; d_cgen : bool; d_mem : rxmem }.
Definition rdev_new : rxdev := mkRdev 0 true None 0 true [].

Inductive rxact := REnq (c : rchain) | RStep | RFlush | RCan (exact : bool) | RDeq | RPkt (p : list N) | RTick.

Definition rdev_fetch (q : rxq) (v : rxdev) : option rxdesc :=
  match k_ring q !! d_next v with
  | Some d => if eqb (r_gen d) (d_gen v) then Some d else None
  | None => None
  end.
Definition rdev_put (q : rxq) (v : rxdev) (idx : nat) (len : N) (sop eop err : bool) : rxq * (nat * bool) :=
  let wrap := S (d_cnext v) =? length (k_comp q) in
  (mkRxq (k_ring q) (k_gen q) (<[d_cnext v := mkRxc idx len sop eop err (d_cgen v)]> (k_comp q)) (k_cgen q) (k_tail q)
     (k_head q) (k_infl q) (k_enq q),
   (if wrap then 0 else S (d_cnext v), if wrap then negb (d_cgen v) else d_cgen v)).
Definition rdev_take (q : rxq) (v : rxdev) (d : rxdesc) (p rest : list N) (sop : bool) (cn : nat * bool) : rxdev :=
  let wrap := S (d_next v) =? length (k_ring q) in
  let chunk := take (N.to_nat (r_len d)) rest in
  mkRdev (if wrap then 0 else S (d_next v)) (if wrap then negb (d_gen v) else d_gen v)
    (Some (CFill p (drop (N.to_nat (r_len d)) rest) (d_next v) (N.of_nat (length chunk)) sop)) cn.1 cn.2
    ((r_addr d, chunk) :: d_mem v).

Definition rdev_tick (q : rxq) (v : rxdev) : option (rxq * rxdev * list rxev) :=
  match d_cur v with
  | None => None
  | Some (CSeek p) =>
      match rdev_fetch q v with
      | None => Some (q, mkRdev (d_next v) (d_gen v) None (d_cnext v) (d_cgen v) (d_mem v), [RvLost p])
      | Some d =>
          if r_body d then
            let wrap := S (d_next v) =? length (k_ring q) in
            Some (q, mkRdev (if wrap then 0 else S (d_next v)) (if wrap then negb (d_gen v) else d_gen v) (d_cur v)
                       (d_cnext v) (d_cgen v) (d_mem v), [])
          else Some (q, rdev_take q v d p p true (d_cnext v, d_cgen v), [])
      end
  | Some (CFill p rest idx len sop) =>
      match rest, rdev_fetch q v with
      | [], _ =>
          let '(q', cn) := rdev_put q v idx len sop true false in
          Some (q', mkRdev (d_next v) (d_gen v) None cn.1 cn.2 (d_mem v), [RvPkt p true])
      | _, Some d =>
          if r_body d then
            let '(q', cn) := rdev_put q v idx len sop false false in
            Some (q', rdev_take q v d p rest false cn, [])
          else
            let '(q', cn) := rdev_put q v idx len sop true true in
            Some (q', mkRdev (d_next v) (d_gen v) None cn.1 cn.2 (d_mem v), [RvPkt p false])
      | _, None =>
          let '(q', cn) := rdev_put q v idx len sop true true in
          Some (q', mkRdev (d_next v) (d_gen v) None cn.1 cn.2 (d_mem v), [RvPkt p false])
      end
  end.

(** One step of the user, of [enqueue], of the network or of the card.  [flush], var.rs:684-695,
    writes a register; this card does not wait for it. *)
Definition rx_step (s : rxq * rxdev) (a : rxact) : option (rxq * rxdev * list rxev) :=
  let '(q, v) := s in
  match a with
  | RPkt p =>
      match d_cur v with
      | None => Some (q, mkRdev (d_next v) (d_gen v) (Some (CSeek p)) (d_cnext v) (d_cgen v) (d_mem v), [])
      | Some _ => None
      end
  | RTick => rdev_tick q v
  | RStep => match rx_enq_step q with Some (q', e) => Some (q', v, e) | None => None end
  | _ =>
      match k_enq q with
      | Some _ => None
      | None =>
          match a with
          | REnq c => let '(q', e) := rx_enq_start q c in Some (q', v, e)
          | RFlush => Some (q, v, [RvFlush])
          | RCan exact =>
              match rx_can_dequeue q exact with
              | Some m => Some (q, v, [RvCan exact m])
              | None => Some (q, v, [RvPanic])
              end
          | RDeq =>
              match rx_dequeue q (d_mem v) with
              | Some (q', r) => Some (q', v, [RvDeq r])
              | None => Some (q, v, [RvPanic])
              end
          | _ => None
          end
      end
  end.

Fixpoint rx_run (s : rxq * rxdev) (l : list rxact) : option (rxq * rxdev * list rxev) :=
  match l with
  | [] => Some (s, [])
  | a :: l =>
      match rx_step s a with
      | Some (s1, e1) => match rx_run s1 l with Some (s2, e2) => Some (s2, e1 ++ e2) | None => None end
      | None => None
      end
  end.
