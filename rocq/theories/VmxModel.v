(** Model of how the driver of the network card sets it up.

    Modelled code:
      lib/vmxnet3/src/vmx.rs:36-133    TRXQueueShared
      lib/vmxnet3/src/vmx.rs:187-225   VMXNet3::new
      lib/vmxnet3/src/vmx.rs:227-268   tx_queues_alloc, rx_queues_alloc
      lib/vmxnet3/src/vmx.rs:270-281   attach_pre, :299-313 check_version
      lib/vmxnet3/src/vmx.rs:334-344   reinit_shared_data
      lib/vmxnet3/src/vmx.rs:346-379   retrieve_lladdr, set_lladdr
      lib/vmxnet3/src/vmx.rs:421-444   link_is_up, link_status
      lib/vmxnet3/src/lib.rs:50-56     BoundedUSize::new
      lib/vmxnet3/src/reg.rs:1093-1233 the records shared with the card

    Memory is modelled by fields: an address holds the number that was stored by
    the field that starts there (the offsets are those of the packed records).
    The rings of the queues (C56, C57) are arbitrary addresses and lengths here.
    The checks of one particular hardware address in debug builds (:357-365) are
    left out. *)
From Verif Require Import Base.

(** lib.rs:54-56. *)
Definition bounded (low high n : N) : N := N.max (N.min n high) low.
Definition MAX_TX_QUEUES : N := 8.
Definition MAX_RX_QUEUES : N := 16.

(** The rings of a queue: addresses and lengths of the command, second command
    (receive only) and completion ring, and of the driver's data. *)
Record tx_queue := mkTx { t_cmd : N; t_cmd_len : N; t_comp : N; t_comp_len : N; t_data : N; t_data_len : N }.
Record rx_queue := mkRx { r_cmd0 : N; r_len0 : N; r_cmd1 : N; r_len1 : N;
                          r_comp : N; r_comp_len : N; r_data : N; r_data_len : N }.

Definition memory := N → N.
Definition store (m : memory) (w : N * N) : memory := λ x, if (x =? w.1)%N then w.2 else m x.

(** vmx.rs:55-80: size of the area for the queues; both records have 256 bytes. *)
Definition area_size (ntx nrx : N) : N := (256 * nrx + 256 * ntx)%N.

(** vmx.rs:82-133: the places of the records; [None]: panic. *)
Definition tx_ref (buf ntx i : N) : option N :=
  if (i <? ntx)%N then Some (buf + 256 * i)%N else None.
Definition rx_ref (buf ntx nrx i : N) : option N :=
  if (i <? nrx)%N then Some (buf + 256 * ntx + 256 * i)%N else None.

(** vmx.rs:232-238, with the offsets of reg.rs:1191-1211. *)
Definition tx_fields (q : tx_queue) : list (N * N) :=
  [(16, t_cmd q); (56, t_cmd_len q); (32, t_comp q); (64, t_comp_len q);
   (40, t_data q); (68, t_data_len q)]%N.

(** vmx.rs:251-260, with the offsets of reg.rs:1215-1233. *)
Definition rx_fields (q : rx_queue) : list (N * N) :=
  [(16, r_cmd0 q); (56, r_len0 q); (24, r_cmd1 q); (60, r_len1 q); (32, r_comp q);
   (64, r_comp_len q); (40, r_data q); (68, r_data_len q)]%N.

Definition at_place (o : option N) (fs : list (N * N)) : list (N * N) :=
  match o with Some a => map (λ f : N * N, (a + f.1, f.2)%N) fs | None => [] end.

(** vmx.rs:227-268: the stores of both loops into the zeroed area. *)
Definition indices (n : N) : list N := map N.of_nat (seq 0 (N.to_nat n)).
Definition queue_stores (buf ntx nrx : N) (tx : N → tx_queue) (rx : N → rx_queue) : list (N * N) :=
  flat_map (λ i, at_place (tx_ref buf ntx i) (tx_fields (tx i))) (indices ntx) ++
  flat_map (λ i, at_place (rx_ref buf ntx nrx i) (rx_fields (rx i))) (indices nrx).

(** The part of reg.rs:1093-1126 that describes the queues. *)
Record shared := mkShared {
  queue_shared : N; queue_shared_len : N; ntxqueue : N; nrxqueue : N; nintr : N; evintr : N }.

(** vmx.rs:187-225, :334-339: [nrx] and [trx] queues asked for. *)
Definition set_up (nrx trx buf : N) (tx : N → tx_queue) (rx : N → rx_queue) : shared * memory :=
  let ntxqsets := bounded 1 MAX_TX_QUEUES trx in
  let nrxqsets := bounded 1 MAX_RX_QUEUES nrx in
  (mkShared buf (area_size ntxqsets nrxqsets)
            (nrxqsets mod 256) (ntxqsets mod 256)
            (nrxqsets + ntxqsets + 1) (nrxqsets mod 256),
   fold_left store (queue_stores buf ntxqsets nrxqsets tx rx) (λ _, 0%N)).

(** vmx.rs:341-343: the address of the shared record in two registers. *)
Definition split_addr (a : N) : N * N := (a mod 2 ^ 32, a / 2 ^ 32)%N.

(** vmx.rs:346-355: the hardware address from the answers to two commands. *)
Definition retrieve (low high : N) : list N :=
  [N.land low 255; N.land (N.shiftr low 8) 255; N.land (N.shiftr low 16) 255;
   N.land (N.shiftr low 24) 255; N.land high 255; N.land (N.shiftr high 8) 255]%N.

(** vmx.rs:368-379: what is written to the registers MACL and MACH. *)
Definition set_lladdr (low high : N) : N * N :=
  match retrieve low high with
  | [a; b; c; d; e; f] =>
      (N.lor (N.lor (N.lor a (N.shiftl b 8)) (N.shiftl c 16)) (N.shiftl d 24),
       N.lor e (N.shiftl f 8))
  | _ => (0, 0)%N
  end.

Inductive attach := Attached | InterruptModeNotSupported | DeviceNotSupported.

(** vmx.rs:270-281, :299-313, after the queues were allocated: the interrupt
    configuration (0: automatic, 3: MSI-X) and the two versions. *)
Definition attach_pre (intr vrrs uvrs : N) : attach :=
  if negb (intr =? 0)%N && negb (intr =? 3)%N then InterruptModeNotSupported
  else if (N.land vrrs 1 =? 0)%N then DeviceNotSupported
  else if (N.land uvrs 1 =? 0)%N then DeviceNotSupported
  else Attached.

(** vmx.rs:421-444: the state of the link kept by the driver. *)
Definition link_status (active : bool) (answer : N) : bool :=
  let link := (0 <? N.land answer 1)%N in
  if link && negb active then true
  else if negb link && active then false
  else active.
