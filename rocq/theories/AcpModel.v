(** Model of the services that the kernel gives to the ACPI interpreter, which
    discovers cores, memory and devices when the machine starts.

    Modelled code:
      kernel/src/arch/x86_64/acpi.rs:40-54    AcpiOsGetRootPointer
      kernel/src/arch/x86_64/acpi.rs:163-204  AcpiOsAllocate, AcpiOsFree
      kernel/src/arch/x86_64/acpi.rs:208-227  AcpiOsMapMemory
      kernel/src/arch/x86_64/acpi.rs:379-428  AcpiOsReadPciConfiguration
      bootloader/src/main.rs:497-503          the ACPI root pointers of the firmware
      lib/bootloader_shared/src/lib.rs:176-177  their initial values

    The environment: the configuration tables of the firmware, the kernel heap
    (C47), the registers 0xcf8 and 0xcfc of the host bridge (PCI Local Bus
    Specification 3.0, 3.2.2.3.2) and what the interpreter does with its memory.
    AcpiOsMapMemory is modelled up to its request to the address space, whose
    effect is the subject of C52. *)
From Verif Require Import Base.

(** ** Root pointer *)

(** An entry of the firmware's configuration tables. *)
Inductive table := Acpi1 (addr : N) | Acpi2 (addr : N) | OtherTable.

(** bootloader/src/main.rs:497-503: acpi1_rsdp and acpi2_rsdp, 0 at first. *)
Definition find_roots (ts : list table) : N * N :=
  fold_left (λ acc t, match t with
                      | Acpi2 a => (acc.1, a)
                      | Acpi1 a => (a, acc.2)
                      | OtherTable => acc
                      end) ts (0, 0)%N.

(** acpi.rs:40-54: AcpiOsGetRootPointer; both pointers are there when the
    kernel's arguments are. *)
Definition root_pointer (ts : list table) : N :=
  let '(rsdp1, rsdp2) := find_roots ts in
  match Some rsdp2, Some rsdp1 with
  | Some p, _ => p
  | None, Some p => p
  | None, None => 0%N
  end.

(** ** Memory *)

(** acpi.rs:163. *)
Definition HEADER_SIZE : N := 16.

(** A word in memory, lowest byte first. *)
Fixpoint le (k : nat) (n : N) : list N :=
  match k with 0 => [] | S k' => (n mod 256)%N :: le k' (n / 256)%N end.
Fixpoint unle (b : list N) : N :=
  match b with [] => 0%N | x :: b' => (x + 256 * unle b')%N end.

Definition memory := N → N.
Definition load (mem : memory) (a : N) (k : nat) : list N :=
  map (λ i, mem (a + N.of_nat i)%N) (seq 0 k).
Definition store (mem : memory) (a : N) (d : list N) : memory :=
  λ x, if ((a <=? x) && (x <? a + N.of_nat (length d)))%N
       then nth (N.to_nat (x - a)) d 0%N else mem x.

(** What happens: the interpreter allocates, with the answer of the heap
    ([None]: no memory), writes a byte, or frees. *)
Inductive op := OAlloc (size : N) (answer : option N) | OWrite (a v : N) | OFree (p : N).

(** What is seen: a pointer is returned (0: none), the heap is asked for or
    given back (address, size, alignment). *)
Inductive event := EReturn (p : N) | EAsk (size align : N) | EGive (a size align : N).

(** acpi.rs:171-189: AcpiOsAllocate. The addition panics when it overflows
    ([None]). *)
Definition os_allocate (mem : memory) (size : N) (answer : option N) : option (memory * list event) :=
  let allocation_size := (size + HEADER_SIZE)%N in
  if (allocation_size <? 2 ^ 64)%N then
    match answer with
    | Some ptr =>
        Some (store mem ptr (le 8 allocation_size),
              [EAsk allocation_size 8; EReturn (ptr + HEADER_SIZE)])
    | None => Some (mem, [EAsk allocation_size 8; EReturn 0])
    end
  else None.

(** acpi.rs:193-204: AcpiOsFree. *)
Definition os_free (mem : memory) (p : N) : list event :=
  if (p =? 0)%N then []
  else [EGive (p - HEADER_SIZE) (unle (load mem (p - HEADER_SIZE) 8)) 8].

Definition step (mem : memory) (o : op) : option (memory * list event) :=
  match o with
  | OAlloc size answer => os_allocate mem size answer
  | OWrite a v => Some (store mem a [v], [])
  | OFree p => Some (mem, os_free mem p)
  end.

(** acpi.rs:208-227: AcpiOsMapMemory: the request to the address space
    (virtual base, physical base, size) and the pointer returned; [None] when
    the sums overflow. *)
Definition PAGE : N := 4096.
Definition KERNEL_BASE : N := 2 ^ 46.
Definition map_memory (location len : N) : option (N * N * N * N) :=
  let base := (location - location mod PAGE)%N in
  let adjusted := (location - base + len)%N in
  let size := ((adjusted + PAGE - 1) / PAGE * PAGE)%N in
  if ((adjusted + PAGE <? 2 ^ 64) && (KERNEL_BASE + location + len + PAGE <? 2 ^ 64))%N
  then Some ((KERNEL_BASE + base)%N, base, size, (location + KERNEL_BASE)%N)
  else None.

(** ** PCI configuration space *)

(** The bytes of the configuration space: bus, device, function, register. *)
Definition config := N → N → N → N → N.

(** The host bridge: reading [k] bytes at 0xcfc + [sel] with [addr] in the
    register 0xcf8. *)
Definition bridge_read (c : config) (addr sel : N) (k : nat) : N :=
  unle (map (λ i, c (N.land (N.shiftr addr 16) 255) (N.land (N.shiftr addr 11) 31)
                    (N.land (N.shiftr addr 8) 7)
                    (N.land addr 252 + sel + N.of_nat i)%N) (seq 0 k)).

(** acpi.rs:403-406: pci_bus_address; [reg] as i32 is compared, [None] is the
    panic. *)
Definition pci_bus_address (bus dev fn reg : N) : option N :=
  if ((reg <=? 252) || (2 ^ 31 <=? reg))%N then
    Some (N.lor (N.lor (N.lor (N.lor (2 ^ 31) (N.shiftl bus 16)) (N.shiftl dev 11))
                       (N.shiftl fn 8)) (N.land reg 252))
  else None.

Inductive pci_result := PciValue (v : N) | PciBad | PciPanic.

(** acpi.rs:379-428: AcpiOsReadPciConfiguration: all widths read at 0xcfc. *)
Definition read_pci (c : config) (bus dev fn reg width : N) : pci_result :=
  match pci_bus_address bus dev fn reg with
  | None => PciPanic
  | Some addr =>
      if (width =? 8)%N then PciValue (bridge_read c addr 0 1)
      else if (width =? 16)%N then PciValue (bridge_read c addr 0 2)
      else if (width =? 32)%N then PciValue (bridge_read c addr 0 4)
      else PciBad
  end.
