(** Model of how the bootloader loads the kernel image, bootloader/src/kernel.rs, and of the physical
    memory it takes for it, allocate_pages_aligned in bootloader/src/vspace.rs:357-453.
    The elfloader crate (not in /repo) calls allocate with all loadable headers, then load for each in
    file order, then relocate for each relocation, then make_readonly.  Not modelled: parsing of the
    file, 64 bit overflow of addresses.  Firmware memory is accessed at its physical address. *)
From Verif Require Import Base VsModel ElfModel BlvModel.

(** A loadable header, with its alignment. *)
Record bhdr := Bh { bh_ph : phdr; bh_align : N }.

(** ** allocate_pages_aligned, vspace.rs:358-428 *)
Definition is_pow2 (n : N) : bool := (0 <? n)%N && (n =? 2 ^ N.log2 n)%N.
Record chunk := Ck { ck_base : N; ck_free : list (N * N) }.
(** [paddr]: what the firmware returned for [alloc_pages how_many al] pages; the chunk kept, and the
    ranges (base, pages) handed back. *)
Definition alloc_pages (how_many al : N) : N := (how_many + al / 4096)%N.                  (* :370 *)
Definition alloc_aligned (how_many al paddr : N) : res chunk :=
  if negb (is_pow2 al) then Panic                                                          (* :363 *)
  else if (al <? 4096)%N then Panic                                                        (* :364-367 *)
  else
    let mask := (al - 1)%N in
    let n := alloc_pages how_many al in
    let e := (paddr + n * 4096)%N in
    let ab := N.ldiff (paddr + mask) mask in                                               (* :378 *)
    if negb (ab mod al =? 0)%N then Panic
    else
      let ae := (ab + how_many * 4096)%N in
      let bot := ((ab - paddr) / 4096)%N in
      let top := ((e - ae) / 4096)%N in
      if (e <? ae)%N then Panic
      else if negb (bot + top =? n - how_many)%N then Panic                                (* :397-401 *)
      else Ok (Ck ab ((if (1 <? bot)%N then [(paddr, bot - 1)%N] else []) ++
                      (if (1 <? top)%N then [(ae + 4096, top - 1)%N] else []))).           (* :404-425 *)
(** allocate_pages zeroes what it returns, vspace.rs:434-453. *)
Definition zeroed (m : pmem) (p n : N) : pmem := fun x => if (p <=? x)%N && (x <? p + n)%N then 0%N else m x.

(** ** allocate, kernel.rs:88-182 *)
Definition k_base (h : bhdr) : N := (ph_va (bh_ph h) - ph_va (bh_ph h) mod 4096)%N.          (* :103 *)
Definition k_size (h : bhdr) : N :=
  ((ph_memsz (bh_ph h) + ph_va (bh_ph h) mod 4096 + 4096 - 1) / 4096 * 4096)%N.              (* :104 *)
(** map_action; [aw]: the feature all-writable, which bootloader/Cargo.toml does not define, so
    that the second table is the one built. *)
Definition k_action (aw : bool) (h : phdr) : bact :=
  if aw then
    match ph_x h, ph_w h, ph_r h with                                                      (* :127-137 *)
    | false, false, true => BReadKernel
    | true, false, true => BReadExecuteKernel
    | false, true, true => BReadWriteKernel
    | true, true, true => BReadWriteExecuteKernel
    | _, _, false => BNone
    end
  else
    match ph_x h, ph_w h, ph_r h with                                                      (* :139-149 *)
    | false, _, true => BReadWriteKernel
    | true, _, true => BReadWriteExecuteKernel
    | _, _, false => BNone
    end.
(** The loop over the headers: min_base, max_end, max_alignment. *)
Record kscan := Ks { ks_min : N; ks_max : N; ks_align : N }.
Definition k_scan1 (s : kscan) (h : bhdr) : kscan :=
  Ks (if (k_base h <? ks_min s)%N then k_base h else ks_min s)
     (if (ks_max s <? k_base h + k_size h)%N then k_base h + k_size h else ks_max s)%N
     (if (ks_align s <? bh_align h)%N then bh_align h else ks_align s).
Definition k_scan (hs : list bhdr) : kscan := foldl k_scan1 (Ks (2 ^ 64 - 1) 0 0) hs.
Definition KOFF : N := 2 ^ 46.                                                             (* :60 *)

(** [kn_req]: the pages asked of the firmware; [kn_free]: the ranges handed back. *)
Record kern := Kn { kn_off : N; kn_tab : gmap N (gmap N pdpte); kn_mem : pmem; kn_req : N; kn_free : list (N * N) }.
(** The pages needed. *)
Definition k_need (hs : list bhdr) : N := ((ks_max (k_scan hs) - ks_min (k_scan hs)) / 4096)%N.
(** [self.mapping] is filled by this call only. *)
Definition k_map1 (aw : bool) (off pbase : N) (t : gmap N (gmap N pdpte)) (h : bhdr) : res (gmap N (gmap N pdpte)) :=
  bl_map t (off + k_base h) (pbase + k_base h) (k_size h) (k_action aw (bh_ph h)).          (* :176-179 *)
Definition k_allocate (aw : bool) (t : gmap N (gmap N pdpte)) (m : pmem) (paddr : N) (hs : list bhdr) : res kern :=
  let s := k_scan hs in
  if negb (ks_min s mod 4096 =? 0)%N || negb (ks_max s mod 4096 =? 0)%N then Panic           (* :157-164 *)
  else
    match alloc_aligned (k_need hs) (ks_align s) paddr with
    | Ok c =>
        let off := (KOFF + ck_base c)%N in                                                 (* :171 *)
        match rfold (k_map1 aw off (ck_base c)) t hs with
        | Ok t' => let n := alloc_pages (k_need hs) (ks_align s) in
                   Ok (Kn off t' (zeroed m paddr (n * 4096)) n (ck_free c))
        | Err e => Err e
        | Panic => Panic
        end
    | Err e => Err e
    | Panic => Panic
    end.

(** load, kernel.rs:184-217. *)
Fixpoint k_copy (t : gmap N (gmap N pdpte)) (m : pmem) (dst : N) (bs : list N) : res pmem :=
  match bs with
  | [] => Ok m
  | v :: bs =>
      match bl_resolve t dst with
      | Some p => k_copy t (poke m p [v]) (dst + 1) bs
      | None => Panic
      end
  end.
Definition k_load (t : gmap N (gmap N pdpte)) (off : N) (m : pmem) (h : bhdr) : res pmem :=
  k_copy t m (off + ph_va (bh_ph h)) (ph_bytes (bh_ph h)).
(** relocate, kernel.rs:225-252. *)
Definition k_relocate (dbg : bool) (t : gmap N (gmap N pdpte)) (off : N) (m : pmem) (r : rela) : res pmem :=
  match bl_resolve t (off + rl_off r) with
  | None => Panic
  | Some p =>
      if rl_rel r then
        match rel_word dbg off r with
        | Ok v => Ok (poke m p (le8 v))
        | Err e => Err e
        | Panic => Panic
        end
      else Err UnableToLoad
  end.
(** make_readonly, kernel.rs:254-273: only checks the end. *)
Definition k_relro (off : N) (ro : option (N * N)) : res unit :=
  match ro with
  | Some (b, n) => if ((off + b + n) mod 4096 =? 0)%N then Ok tt else Panic
  | None => Ok tt
  end.

Definition k_run (dbg aw : bool) (t : gmap N (gmap N pdpte)) (m : pmem) (paddr : N) (hs : list bhdr) (rs : list rela)
    (ro : option (N * N)) : res kern :=
  match k_allocate aw t m paddr hs with
  | Ok k =>
      match rfold (k_load (kn_tab k) (kn_off k)) (kn_mem k) hs with
      | Ok m1 =>
          match rfold (k_relocate dbg (kn_tab k) (kn_off k)) m1 rs with
          | Ok m2 =>
              match k_relro (kn_off k) ro with
              | Ok _ => Ok (Kn (kn_off k) (kn_tab k) m2 (kn_req k) (kn_free k))
              | Err e => Err e
              | Panic => Panic
              end
          | Err e => Err e
          | Panic => Panic
          end
      | Err e => Err e
      | Panic => Panic
      end
  | Err e => Err e
  | Panic => Panic
  end.
