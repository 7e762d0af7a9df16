(** Model of what the bootloader maps besides the kernel image: the initial stack and the memory the
    firmware reports, bootloader/src/main.rs:149-239, 388-410.  Not modelled: how the memory map is read
    from the firmware, the control registers, the arguments passed on. *)
From Verif Require Import Base VsModel ElfModel BlvModel BliModel.

(** Memory types: those of UEFI, those the bootloader defines (kernel.rs:25-41), others. *)
Inductive uty :=
| URESERVED | ULOADER_CODE | ULOADER_DATA | UBOOT_SERVICES_CODE | UBOOT_SERVICES_DATA
| URUNTIME_SERVICES_CODE | URUNTIME_SERVICES_DATA | UCONVENTIONAL | UUNUSABLE | UACPI_RECLAIM
| UACPI_NON_VOLATILE | UMMIO | UMMIO_PORT_SPACE | UPAL_CODE | UPERSISTENT_MEMORY
| UKERNEL_ELF | UKERNEL_PT | UKERNEL_STACK | UMEMORY_MAP | UKERNEL_ARGS | UMODULE | UOTHER (n : N).
(** MemoryDescriptor: ty, phys_start, page_count. *)
Record udesc := Ud { ud_ty : uty; ud_start : N; ud_pages : N }.
Definition ud_len (d : udesc) : N := (ud_pages d * 4096)%N.

(** The descriptors passed over, main.rs:163-176. *)
Definition p_skip (d : udesc) : bool :=
  (ud_start d =? 0)%N ||
  ((ud_start d <=? 4276092928)%N && (4276092928 <=? ud_start d + ud_len d)%N).
(** rights, main.rs:178-204. *)
Definition p_rights (ty : uty) : bact :=
  match ty with
  | URESERVED => BNone
  | ULOADER_CODE => BReadExecuteKernel
  | ULOADER_DATA => BReadWriteKernel
  | UBOOT_SERVICES_CODE => BReadExecuteKernel
  | UBOOT_SERVICES_DATA => BReadWriteKernel
  | URUNTIME_SERVICES_CODE => BReadExecuteKernel
  | URUNTIME_SERVICES_DATA => BReadWriteKernel
  | UCONVENTIONAL => BReadWriteExecuteKernel
  | UUNUSABLE => BNone
  | UACPI_RECLAIM | UACPI_NON_VOLATILE | UMMIO | UMMIO_PORT_SPACE => BReadWriteKernel
  | UPAL_CODE => BReadExecuteKernel
  | UPERSISTENT_MEMORY => BReadWriteKernel
  | UKERNEL_ELF => BReadKernel
  | UKERNEL_PT | UKERNEL_STACK | UMEMORY_MAP => BReadWriteKernel
  | UKERNEL_ARGS | UMODULE => BReadKernel
  | UOTHER _ => BNone
  end.
(** The types also mapped in kernel space, main.rs:215-225. *)
Definition p_kernel (ty : uty) : bool :=
  match ty with
  | UCONVENTIONAL | UBOOT_SERVICES_DATA | ULOADER_DATA | UKERNEL_PT | UMODULE | UKERNEL_ARGS => true
  | _ => false
  end.
(** One round of the loop, main.rs:162-237. *)
Definition p_map1 (t : gmap N (gmap N pdpte)) (d : udesc) : res (gmap N (gmap N pdpte)) :=
  if p_skip d then Ok t
  else
    let a := p_rights (ud_ty d) in
    let e := (ud_start d + ud_len d)%N in
    if bool_decide (a = BNone) then Ok t
    else
      match bl_map_identity t (ud_start d) e a with
      | Ok t1 => if p_kernel (ud_ty d) then bl_map_offset t1 KOFF (ud_start d) e a else Ok t1
      | r => r
      end.
Definition p_map (t : gmap N (gmap N pdpte)) (ds : list udesc) : res (gmap N (gmap N pdpte)) := rfold p_map1 t ds.

(** The stack, main.rs:388-410: [s] is the region of 1024 pages the firmware returned. *)
Definition STACK : N := 1024 * 4096.
Definition p_stack (t : gmap N (gmap N pdpte)) (s : N) : res (gmap N (gmap N pdpte)) :=
  match bl_map_offset t KOFF s (s + 4096) BReadUser with
  | Ok t1 => bl_map_offset t1 KOFF (s + 4096) (s + STACK) BReadWriteKernel
  | r => r
  end.
(** What follows loading the image in uefi_start, main.rs:388-424. *)
Definition p_boot (t : gmap N (gmap N pdpte)) (s : N) (ds : list udesc) : res (gmap N (gmap N pdpte)) :=
  match p_stack t s with
  | Ok t1 => p_map t1 ds
  | r => r
  end.
