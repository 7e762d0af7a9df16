(** Vocabulary for loading the kernel image (C59). *)
From Verif Require Import Base VsModel ElfModel BlvModel BlvSpec BliModel.

(** [a] is an address of the segment; one whose content comes from the file. *)
Definition seg_at (h : bhdr) (a : N) : Prop := in_range (ph_va (bh_ph h)) (ph_memsz (bh_ph h)) a.
Definition file_at (h : bhdr) (a : N) : bool :=
  (ph_va (bh_ph h) <=? a)%N && (a <? ph_va (bh_ph h) + N.of_nat (length (ph_bytes (bh_ph h))))%N.
(** The 4 KiB pages the segment touches. *)
Definition touches (h : bhdr) (k : N) : Prop := exists a, seg_at h a /\ (a / 4096 = k)%N.

(** What the image holds at address [a] of segment [h] once it runs at [off]: the word of the last
    relocation there, else the byte of the file, else zero. *)
Definition reloc_at (r : rela) (a : N) : bool := (rl_off r <=? a)%N && (a <? rl_off r + 8)%N.
Definition last_reloc (rs : list rela) (a : N) : option rela := List.find (fun r => reloc_at r a) (rev rs).
Definition byte_of (v i : N) : N := (v / 256 ^ i mod 256)%N.
Definition image (off : N) (rs : list rela) (h : bhdr) (a : N) : N :=
  match last_reloc rs a with
  | Some r => byte_of (off + rl_add r) (a - rl_off r)
  | None => if file_at h a then nth (N.to_nat (a - ph_va (bh_ph h))) (ph_bytes (bh_ph h)) 0%N else 0%N
  end.

(** The images supported: readable segments with content that fits, no two on one page, linked at
    address 0, with alignments that are powers of two, one of them at least a page. *)
Record image_ok (hs : list bhdr) : Prop := {
  io_seg : Forall (fun h => ph_r (bh_ph h) = true /\ 0 < ph_memsz (bh_ph h) /\
             N.of_nat (length (ph_bytes (bh_ph h))) <= ph_memsz (bh_ph h) /\
             ph_va (bh_ph h) + ph_memsz (bh_ph h) <= 2 ^ 44)%N hs;
  io_apart : forall i j h g k, hs !! i = Some h -> hs !! j = Some g -> touches h k -> touches g k -> i = j;
  io_zero : exists h, h ∈ hs /\ (ph_va (bh_ph h) < 4096)%N;
  io_align : Forall (fun h => exists e, bh_align h = 2 ^ e /\ e <= 44)%N hs;
  io_page : exists h, h ∈ hs /\ (4096 <= bh_align h)%N }.
(** The relocations supported: relative ones inside a segment. *)
Definition relocs_in (hs : list bhdr) (rs : list rela) : Prop :=
  Forall (fun r => rl_rel r = true /\ (rl_add r < 2 ^ 63)%N /\
    exists h, h ∈ hs /\ seg_at h (rl_off r) /\ seg_at h (rl_off r + 7)) rs.

(** The rights the flags of a header ask for. *)
Definition seg_asks (h : phdr) (write exec : bool) : bool :=
  ph_r h && (negb write || ph_w h) && (negb exec || ph_x h).
