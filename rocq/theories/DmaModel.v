(** Model of what the runtime library offers device drivers of a program: lib/vibrio/src/rumprt/dev.rs (addresses for DMA, DMA
    memory, PCI configuration space, interrupts), on the pagers of PgModel.v and the address space calls of the kernel, and
    kernel/src/arch/x86_64/irq.rs:848-885 for the I/O APICs.
    Not modelled: rumpcomp_pci_map (map_device is C43), dmamem_map, and the shortcut for cores of a rack (dev.rs:44-46, 76-78),
    which returns success without an access. *)
From Verif Require Import Base PgModel.
Local Open Scope N_scope.

(** * Addresses for DMA *)
(** The pagers, the address space of the process (page number to frame number, the result of page_table.rs:940 resolve), and
    PADDR_CACHE (dev.rs:20), from page address to frame address. *)
Record dst := mkD { d_pg : pgs; d_map : gmap N N; d_cache : option (gmap N N) }.

Definition page_of (va : N) : N := va / 4096 * 4096.
Definition off_of (va : N) : N := va mod 4096.

(** The kernel maps [n] pages at page [v] to a region of consecutive frames from [p]. *)
Fixpoint map_pages (m : gmap N N) (v p : N) (n : nat) : gmap N N :=
  match n with O => m | S n => map_pages (<[v := p]> m) (v + 1) (p + 1) n end.
Fixpoint unmap_pages (m : gmap N N) (v : N) (n : nat) : gmap N N :=
  match n with O => m | S n => unmap_pages (delete v m) (v + 1) n end.

(** rumpcomp_pci_iospace_init, dev.rs:29-33. *)
Definition iospace_init (st : dst) : dst := mkD (d_pg st) (d_map st) (Some ∅).

(** The system call Identify for a page address: kernel/src/arch/x86_64/syscall.rs:430-435, nrproc.rs:178-193; and the local
    function identify, dev.rs:206-221, which unwraps its result. *)
Definition identify (st : dst) (va : N) : res N :=
  match d_map st !! (page_of va / 4096) with Some p => Ok (p * 4096 + off_of va) | None => Panic end.

(** rumpcomp_pci_virt_to_mach, dev.rs:202-243. *)
Definition virt_to_mach (st : dst) (va : N) : res N * dst :=
  match d_cache st with
  | None => (identify st va, st)
  | Some ht =>
      match ht !! page_of va with
      | Some pa => (Ok (pa + off_of va), st)
      | None =>
          match identify st va with
          | Ok pa => (Ok pa, mkD (d_pg st) (d_map st) (Some (<[page_of va := page_of pa]> ht)))
          | e => (e, st)
          end
      end
  end.

(** rumpcomp_pci_dmalloc, dev.rs:245-289.  [ans]: the kernel's answer to the map request, the frame that now backs it. *)
Definition dma_size (size : N) : N := if 4096 <? size then 2097152 else 4096.
Definition dmalloc (st : dst) (core : nat) (size align : N) (ans : option N) : res (N * N) * dst :=
  if 2097152 <? size then (Panic, st)
  else
    match pg_allocate (d_pg st) core (dma_size size) (dma_size size) (match ans with Some _ => true | None => false end) with
    | (Ok va, pg) =>
        let pa := default 0 ans in
        (Ok (va, pa), mkD pg (map_pages (d_map st) (va / 4096) (pa / 4096) (N.to_nat (dma_size size / 4096)))
                          (match d_cache st with Some ht => Some (<[va := pa]> ht) | None => None end))
    | (Err e, pg) => (Err e, mkD pg (d_map st) (d_cache st))
    | (Panic, pg) => (Panic, st)
    end.
(** rumpcomp_pci_dmafree, dev.rs:291-294: only a message. *)
Definition dmafree (st : dst) (va size : N) : dst := st.

(** Other maps and unmaps of the process: memory.rs of lib/kpi. *)
Definition other_map (st : dst) (v p : N) (n : nat) : dst := mkD (d_pg st) (map_pages (d_map st) v p n) (d_cache st).
Definition other_unmap (st : dst) (v : N) (n : nat) : dst := mkD (d_pg st) (unmap_pages (d_map st) v n) (d_cache st).

(** * PCI configuration space *)
(** pci_bus_address, dev.rs:22-27; [reg] is not negative here (an i32, a negative one passes the assertion and is masked). *)
Definition pci_bus_address (bus dev fn reg : N) : res N :=
  if reg <=? 252 then Ok (N.lor (2 ^ 31) (N.lor (bus * 2 ^ 16) (N.lor (dev * 2 ^ 11) (N.lor (fn * 2 ^ 8) (N.land reg 252)))))
  else Panic.

(** The host bridge: PCI Local Bus Specification 3.0, 3.2.2.3.2 (CONFIG_ADDRESS). *)
Definition pci_select (a : N) : option (N * N * N * N) :=
  if N.testbit a 31 then Some (a / 2 ^ 16 mod 256, a / 2 ^ 11 mod 32, a / 2 ^ 8 mod 8, a / 4 mod 64 * 4) else None.

(** Calls: confread and confwrite, dev.rs:35-98, with bus, device, function and register. *)
Inductive cop := CRead (t : N * N * N * N) | CWrite (t : N * N * N * N) (v : N).
Definition cop_addr (o : cop) : res N :=
  match o with CRead (b, d, f, r) | CWrite (b, d, f, r) _ => pci_bus_address b d f r end.
(** A thread: outside, about to lock, with the lock, with the address written. *)
Inductive cst := CIdle | CWant (o : cop) (a : N) | CHold (o : cop) (a : N) | CSent (o : cop) | CDead.
(** Processes have a CONFSPACE_LOCK each (a static of the library, dev.rs:19); ports and devices are shared: every process has
    I/O privilege.  [p_log]: accesses to the data port in order, with the value read or written. *)
Record pci := mkPci { p_addr : N; p_cfg : N * N * N * N -> N; p_lock : nat -> option nat; p_thr : nat -> nat -> cst;
                      p_log : list (cop * N) }.
Definition set1 {A} (f : nat -> A) (i : nat) (x : A) : nat -> A := fun j => if Nat.eqb j i then x else f j.
Definition set2 {A} (f : nat -> nat -> A) (i j : nat) (x : A) : nat -> nat -> A := fun a b => if Nat.eqb a i && Nat.eqb b j then x else f a b.

(** One step of thread [t] of process [p]; [o]: the call an idle thread makes. *)
Definition pci_step (p t : nat) (o : cop) (s : pci) : pci :=
  match p_thr s p t with
  | CIdle =>
      match cop_addr o with
      | Ok a => mkPci (p_addr s) (p_cfg s) (p_lock s) (set2 (p_thr s) p t (CWant o a)) (p_log s)
      | _ => mkPci (p_addr s) (p_cfg s) (p_lock s) (set2 (p_thr s) p t CDead) (p_log s)
      end
  | CWant o a =>
      match p_lock s p with
      | None => mkPci (p_addr s) (p_cfg s) (set1 (p_lock s) p (Some t)) (set2 (p_thr s) p t (CHold o a)) (p_log s)
      | Some _ => s
      end
  | CHold o a => mkPci a (p_cfg s) (p_lock s) (set2 (p_thr s) p t (CSent o)) (p_log s)
  | CSent (CRead x) =>
      let v := match pci_select (p_addr s) with Some y => p_cfg s y | None => 2 ^ 32 - 1 end in
      mkPci (p_addr s) (p_cfg s) (set1 (p_lock s) p None) (set2 (p_thr s) p t CIdle) (p_log s ++ [(CRead x, v)])
  | CSent (CWrite x v) =>
      let cfg := match pci_select (p_addr s) with
                 | Some y => fun z => if decide (z = y) then v else p_cfg s z | None => p_cfg s end in
      mkPci (p_addr s) cfg (set1 (p_lock s) p None) (set2 (p_thr s) p t CIdle) (p_log s ++ [(CWrite x v, v)])
  | CDead => s
  end.
Definition pci_run (l : list (nat * nat * cop)) (s : pci) : pci := fold_left (fun s x => pci_step x.1.1 x.1.2 x.2 s) l s.
Definition pci0 (cfg : N * N * N * N -> N) : pci := mkPci 0 cfg (fun _ => None) (fun _ _ => CIdle) [].

(** * Interrupts *)
(** IRQS[0], dev.rs:100-115 (the other entries are never used), and the vectors that have a thread (irqvec_to_tid,
    lib/lineup/src/scheduler.rs:147). *)
Record irqs := mkIrqs { i_tuple : N * N * N; i_vec : N; i_cookie : N; i_fun : option N; i_arg : N; i_vecs : list N }.
Definition irqs0 : irqs := mkIrqs (0, 0, 0) 0 0 None 0 [].
(** rumpcomp_pci_irq_map, dev.rs:117-151. *)
Definition irq_map (b d f vec cookie : N) (s : irqs) : irqs := mkIrqs (b, d, f) vec cookie (i_fun s) (i_arg s) (vec + 32 :: i_vecs s).
(** rumpcomp_pci_irq_establish, dev.rs:181-193. *)
Definition irq_establish (cookie : N) (h : option N) (arg : N) (s : irqs) : irqs :=
  mkIrqs (i_tuple s) (i_vec s) (i_cookie s) h arg (i_vecs s).
(** An interrupt: the thread of the vector wakes up (scheduler.rs:411-420) and runs irq_handler, dev.rs:153-179.  Which handler
    runs with which argument. *)
Definition irq_arrives (vec : N) (s : irqs) : res (option (N * N)) :=
  if decide (vec ∈ i_vecs s) then match i_fun s with Some h => Ok (Some (h, i_arg s)) | None => Panic end else Ok None.

(** ioapic_establish_route, irq.rs:848-885: all I/O APICs (first interrupt line, number of lines).  [enable i 0] of the x86
    crate routes input [i] as vector 32 + i to core 0.  The lines that are enabled, with vector and core. *)
Definition establish_route (apics : list (N * N)) (gsi core : N) : list (N * (N * N)) :=
  flat_map (fun ap : N * N =>
    map (fun i => (ap.1 + i, (32 + i, 0)))
      (List.filter (fun i => (ap.1 + i <? 16) && negb (i =? 2) && negb (i =? 1)) (map N.of_nat (seq 0 (N.to_nat ap.2))))) apics.
