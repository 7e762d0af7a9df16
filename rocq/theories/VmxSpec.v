(** Specification for setting up the network card: how the card reads the area it
    was given. *)
From Verif Require Import Base VmxModel.
Local Open Scope N_scope.

(** The records are an array for the transmit queues and after it one for the
    receive queues; the numbers of queues are in the shared record. *)
Definition card_tx (ds : shared) (m : memory) (i : N) : tx_queue :=
  let a := (queue_shared ds + 256 * i)%N in
  mkTx (m (a + 16)) (m (a + 56)) (m (a + 32)) (m (a + 64)) (m (a + 40)) (m (a + 68))%N.
Definition card_rx (ds : shared) (m : memory) (i : N) : rx_queue :=
  let a := (queue_shared ds + 256 * ntxqueue ds + 256 * i)%N in
  mkRx (m (a + 16)) (m (a + 56)) (m (a + 24)) (m (a + 60)) (m (a + 32)) (m (a + 64)) (m (a + 40)) (m (a + 68))%N.

(** The [k]-th byte of a number. *)
Definition byte (n k : N) : N := ((n / 256 ^ k) mod 256)%N.
