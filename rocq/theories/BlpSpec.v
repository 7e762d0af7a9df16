(** Vocabulary for the memory the bootloader maps (C60). *)
From Verif Require Import Base VsModel BlvModel BlvSpec BliModel BlpModel.

Definition in_desc (d : udesc) (x : N) : Prop := in_range (ud_start d) (ud_len d) x.
(** Memory that exists and is not reserved, unusable or of unknown type. *)
Definition usable (ty : uty) : bool := match ty with URESERVED | UUNUSABLE | UOTHER _ => false | _ => true end.
(** Where the local interrupt controller is. *)
Definition APIC : N := 4276092928.
(** A memory map as firmware reports it: page granular, no overlaps. *)
Record map_ok (ds : list udesc) : Prop := {
  mo_each : Forall (fun d => (ud_start d mod 4096 = 0)%N /\ (0 < ud_pages d)%N /\ (ud_start d + ud_len d <= 2 ^ 46)%N) ds;
  mo_apart : forall i j d d' x, ds !! i = Some d -> ds !! j = Some d' -> in_desc d x -> in_desc d' x -> i = j }.
(** The rights by memory type: code can be executed, data written, what the bootloader
    made for the kernel to read only read, free memory everything. *)
Definition desc_asks (ty : uty) (write exec : bool) : bool :=
  match ty with
  | ULOADER_CODE | UBOOT_SERVICES_CODE | URUNTIME_SERVICES_CODE | UPAL_CODE => negb write
  | UKERNEL_ELF | UKERNEL_ARGS | UMODULE => negb write && negb exec
  | UCONVENTIONAL => true
  | URESERVED | UUNUSABLE | UOTHER _ => false
  | _ => negb exec
  end.
(** The types the kernel needs in its own space. *)
Definition kernel_needs (ty : uty) : Prop :=
  ty = UCONVENTIONAL \/ ty = UBOOT_SERVICES_DATA \/ ty = ULOADER_DATA \/ ty = UKERNEL_PT \/ ty = UMODULE \/ ty = UKERNEL_ARGS.
