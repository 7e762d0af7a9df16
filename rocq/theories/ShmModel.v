(** Model of how the memory shared by the machines of a rack is divided: kernel/src/transport/shmem.rs:44-82,
    318-488, kernel/src/memory/shmem_affinity.rs, lib/rpc/src/transport/shmem/allocator.rs, the layout of
    lib/rpc/src/transport/shmem/queue_mpmc.rs:27-152 and the checks at the start of dealloc,
    kernel/src/memory/mod.rs:627-652.  Not modelled: the PCI registers and the mappings ShmemDevice::new
    makes (C58 and C01 are about mappings); [is_shmem_frame], which nothing calls.  Addresses are numbers
    without wrap-around. *)
From Verif Require Import Base QueueModel.

(** KERNEL_BASE, lib/kpi/src/lib.rs:31; MAX_NUMA_NODES, kernel/src/arch/x86_64/mod.rs:70;
    SHMEM_TRANSPORT_SIZE and SHMEM_QUEUE_SIZE, shmem.rs:319, 326. *)
Definition SKB : N := 2 ^ 46.
Definition MAXN : nat := 12.
Definition TSIZE : N := 2097152.
Definition QCAP : nat := 32.

(** A shared-memory device as found on the bus: its device number, the base and size of BAR2. *)
Record sdev := Sd { sd_bus : N; sd_dev : N; sd_base : N; sd_size : N }.
(** [sort_by] the device number is a stable sort, shmem.rs:64. *)
Fixpoint s_insert (d : sdev) (l : list sdev) : list sdev :=
  match l with
  | [] => [d]
  | e :: l' => if (sd_dev d <=? sd_dev e)%N then d :: l else e :: s_insert d l'
  end.
(** Shmem::new, shmem.rs:56-82: the device at index [i] of the result is that of machine [i]; None when
    no device is found. *)
Definition s_new (pcis : list sdev) : option (list sdev) :=
  match pcis with [] => None | _ => Some (foldr s_insert [] pcis) end.

(** SHMEM.devices, NUM_MACHINES (environment.rs:31-32) and whether the transport given on the command line
    is shared memory. *)
Record shm := Shm { sh_devs : list sdev; sh_machines : nat; sh_shmem : bool }.
(** Frame. *)
Record sframe := Sf { sf_base : N; sf_size : N; sf_aff : nat }.

(** shmem_affinity.rs:15-32; the subtraction below zero panics. *)
Definition is_shmem_affinity (a : nat) : bool := MAXN <=? a.
Definition mid_to_shmem_affinity (mid : nat) : nat := MAXN + mid.
Definition shmem_affinity_to_mid (a : nat) : option nat := if MAXN <=? a then Some (a - MAXN) else None.

(** get_affinity_shmem_by_mid, shmem.rs:404-430.  None: index out of bounds, or the size falls below zero. *)
Definition s_frame (s : shm) (mid : nat) : option sframe :=
  match sh_devs s !! mid with
  | None => None
  | Some d =>
      if sh_shmem s && negb (mid =? 0) then
        if (sd_size d <? TSIZE)%N then None
        else Some (Sf (sd_base d + TSIZE) (sd_size d - TSIZE) (mid_to_shmem_affinity mid))
      else Some (Sf (sd_base d) (sd_size d) (mid_to_shmem_affinity mid))
  end.

Definition s_off (kaddr : bool) : N := if kaddr then SKB else 0.
(** The loop of is_shmem_addr and get_shmem_index_by_addr, shmem.rs:457-464 and 479-485: the first machine
    whose memory has the address; the outer None is a panic. *)
Fixpoint s_find (s : shm) (addr : N) (kaddr : bool) (mids : list nat) : option (option nat) :=
  match mids with
  | [] => Some None
  | mid :: mids' =>
      match s_frame s mid with
      | None => None
      | Some f =>
          let start := (sf_base f + s_off kaddr)%N in
          if (start <=? addr)%N && (addr <=? start + sf_size f)%N then Some (Some mid)
          else s_find s addr kaddr mids'
      end
  end.
(** get_shmem_index_by_addr, shmem.rs:477-488. *)
Definition s_index (s : shm) (addr : N) (kaddr : bool) : option (option nat) :=
  s_find s addr kaddr (seq 0 (sh_machines s)).
(** is_shmem_addr, shmem.rs:447-467; [Some me] stands for is_affinity on machine [me]. *)
Definition s_is_addr (s : shm) (addr : N) (local : option nat) (kaddr : bool) : option bool :=
  match local with
  | Some me =>
      match s_frame s me with
      | None => None
      | Some f => let start := (sf_base f + s_off kaddr)%N in
                  Some ((start <=? addr)%N && (addr <=? start + sf_size f)%N)
      end
  | None => match s_index s addr kaddr with
            | None => None | Some (Some _) => Some true | Some None => Some false end
  end.
(** is_shmem_addr_with_affinity, shmem.rs:470-475. *)
Definition s_is_addr_aff (s : shm) (addr : N) (aff : nat) (kaddr : bool) : option bool :=
  match shmem_affinity_to_mid aff with
  | None => None
  | Some mid =>
      match s_frame s mid with
      | None => None
      | Some f => let start := (sf_base f + s_off kaddr)%N in
                  Some ((start <=? addr)%N && (addr <? start + sf_size f)%N)
      end
  end.

(** What dealloc does with a block while the allocator of [aff] is selected, memory/mod.rs:627-652: it
    panics, drops the block, or hands it to that allocator. *)
Inductive sfate := FPanic | FLost | FTo (aff : nat).
Definition s_dealloc (s : shm) (aff : nat) (ptr : N) : sfate :=
  match s_is_addr s ptr None false with
  | None | Some true => FPanic
  | Some false =>
      if is_shmem_affinity aff then
        match s_is_addr_aff s ptr aff true with
        | None => FPanic | Some false => FLost | Some true => FTo aff
        end
      else
        match s_is_addr s ptr None true with
        | None => FPanic | Some true => FLost | Some false => FTo aff
        end
  end.

(** ** The allocator of the transport, allocator.rs. *)
(** Each thread loads [next] and then exchanges it; [weak] is an exchange that fails for no reason.  A
    failed allocation ends in handle_alloc_error. *)
Inductive apc := LIdle | LWait (cur size : N) | LDead.
Record alst := Al { al_base : N; al_size : N; al_next : N; al_th : list apc }.
Definition al_new (base size : N) (n : nat) : alst := Al base size base (replicate n LIdle).
Inductive alact := LStart (size align : N) | LCas (weak : bool).
(** A block handed out, (address, size). *)
Definition al_step (s : alst) (i : nat) (a : alact) : option (alst * list (N * N)) :=
  match al_th s !! i, a with
  | Some LIdle, LStart size _ =>                                                   (* :40-41 *)
      Some (Al (al_base s) (al_size s) (al_next s) (<[i := LWait (al_next s) size]> (al_th s)), [])
  | Some (LWait cur size), LCas weak =>
      if (al_base s + al_size s <? cur + size)%N then                              (* :24-26 *)
        Some (Al (al_base s) (al_size s) (al_next s) (<[i := LDead]> (al_th s)), [])
      else if (al_next s =? cur)%N && negb weak then                               (* :28-36 *)
        Some (Al (al_base s) (al_size s) (cur + size) (<[i := LIdle]> (al_th s)), [(cur, size)])
      else Some (Al (al_base s) (al_size s) (al_next s) (<[i := LDead]> (al_th s)), [])
  | _, _ => None
  end.
Fixpoint al_run (s : alst) (l : list (nat * alact)) : option (alst * list (N * N)) :=
  match l with
  | [] => Some (s, [])
  | (i, a) :: l' =>
      match al_step s i a with
      | None => None
      | Some (s', e) => match al_run s' l' with None => None | Some (s'', e') => Some (s'', e ++ e') end
      end
  end.

(** ** The queues. *)
(** size_of::<Node>(): 8 bytes, 2 bytes and 8192 bytes, rounded up to a multiple of 8 (queue_mpmc.rs:26-31). *)
Definition NODE : N := 8208.
(** State::capacity, queue_mpmc.rs:125-142; the rounding is that of C27. *)
Definition q_bytes (c : nat) : N := (2 * 8 + N.of_nat (round_capacity c) * NODE)%N.
(** The parts of a queue made at [mem], queue_mpmc.rs:82-98 and 26-31: the two positions and each node's
    sequence number, length and bytes, as (address, size). *)
Definition q_parts (c : nat) (mem : N) : list (N * N) :=
  [(mem, 8%N); ((mem + 8)%N, 8%N)] ++
  flat_map (fun i => let a := (mem + 16 + N.of_nat i * NODE)%N in
                     [(a, 8%N); ((a + 8)%N, 2%N); ((a + 10)%N, 8192%N)])
           (seq 0 (round_capacity c)).

(** Queue::with_capacity_in by one thread, queue_mpmc.rs:65-80: the address of the queue. *)
Definition q_new (s : alst) (c : nat) : option (alst * N) :=
  match al_run s [(0, LStart (q_bytes c) 8); (0, LCas false)] with
  | Some (s', [(a, _)]) => Some (s', a)
  | _ => None
  end.

Inductive smode := MController | MClient | MNative.
(** create_shmem_transport, shmem.rs:331-385: where the queue to send to and the queue to receive from are.
    Err: not started as part of a rack (KError::InvalidNativeMode, written NotSupported here). *)
Definition s_transport (s : shm) (mid : nat) (m : smode) : res (N * N) :=
  match sh_devs s !! mid with
  | None => Panic
  | Some d =>
      if (sd_size d <? TSIZE)%N then Panic                                         (* :343 *)
      else
        let al := al_new (sd_base d + SKB) TSIZE 1 in                              (* :345 *)
        match m with
        | MNative => Err NotSupported
        | _ =>
            match q_new al QCAP with
            | None => Panic
            | Some (al1, q1) =>
                match q_new al1 QCAP with
                | None => Panic
                | Some (_, q2) =>
                    match m with
                    | MController => Ok (q1, q2)      (* sends server_to_client, receives client_to_server *)
                    | _ => Ok (q2, q1)                (* the other way round *)
                    end
                end
            end
        end
  end.
