(** Loading a program: DataSecAllocator (kernel/src/process.rs:231-463) and the ElfLoader of
    Ring3Process (kernel/src/arch/x86_64/process.rs:1083-1324).

    The elfloader crate (not in /repo) drives both; its [load] calls allocate with all loadable
    headers, then load for each of them in file order, then relocate for each relocation, then
    make_readonly.  Build without the feature rackscale.  Not modelled: parsing of the file, tls
    (which stores four numbers), the copying of the kernel's page table entries at the end of
    Ring3Process::load, additions of addresses beyond 2^64. *)
From Verif Require Import Base VsModel.

(** A loadable header: virtual_addr, mem_size, the bytes in the file, flags. *)
Record phdr := Ph { ph_va : N; ph_memsz : N; ph_bytes : list N; ph_r : bool; ph_w : bool; ph_x : bool }.
(** A relocation: get_offset, whether its type is R_RELATIVE, get_addend. *)
Record rela := Rl { rl_off : N; rl_rel : bool; rl_add : N }.

(** Physical memory, by bytes; copy_nonoverlapping and the assignments through pointers. *)
Definition pmem := N -> N.
Definition poke (m : pmem) (p : N) (bs : list N) : pmem :=
  fun x => if (p <=? x)%N && (x <? p + N.of_nat (length bs))%N then nth (N.to_nat (x - p)) bs 0%N else m x.
(** The bytes of a 64 bit word. *)
Definition le8 (v : N) : list N := map (fun i => (v / 256 ^ N.of_nat i) mod 256)%N (seq 0 8).
(** offset.as_u64() + entry.get_addend(), process.rs:453, arch/x86_64/process.rs:1285: the
    addition is checked in debug builds and wraps otherwise. *)
Definition rel_word (dbg : bool) (off : N) (r : rela) : res N :=
  if (2 ^ 64 <=? off + rl_add r)%N && dbg then Panic else Ok ((off + rl_add r) mod 2 ^ 64)%N.

(** page_base and size_page / LARGE_PAGE_SIZE, process.rs:263-265, arch/x86_64/process.rs:1104-1106. *)
Definition page_base (h : phdr) : N := (ph_va h - ph_va h mod LARGE)%N.
Definition n_pages (h : phdr) : nat := N.to_nat ((ph_memsz h + ph_va h mod LARGE + LARGE - 1) / LARGE).

(** ** DataSecAllocator *)

(** The pages a header occupies, from page [b] on, with the frames given to them. *)
Fixpoint pair_pages (b : N) (fs : list N) : list (N * N) :=
  match fs with [] => [] | f :: fs => (b, f) :: pair_pages (b + LARGE) fs end.
(** allocate, process.rs:252-346.  [sup]: the large pages in the cache; too few of them is a
    failed refill (line 323) or allocation (line 331), both of which panic. *)
Fixpoint ds_allocate (hs : list phdr) (sup : list N) : res (list (N * N)) :=
  match hs with
  | [] => Ok []
  | h :: hs =>
    if ph_w h then
      if length sup <? n_pages h then Panic
      else match ds_allocate hs (drop (n_pages h) sup) with
        | Ok l => Ok (pair_pages (page_base h) (take (n_pages h) sup) ++ l)
        | e => e
        end
    else ds_allocate hs sup
  end.
(** The loop of load, process.rs:366-415, over the frames.  [dst - eb] of line 395 is checked in
    debug builds; in others it would wrap, here it panics. *)
Fixpoint ds_copy (fs : list (N * N)) (m : pmem) (dst : N) (region : list N) : res pmem :=
  match fs with
  | [] => Ok m
  | (eb, f) :: fs =>
    let len := N.of_nat (length region) in
    if (dst <? eb + LARGE)%N && (eb <? dst + len)%N then
      let cs := (N.max eb dst - dst)%N in
      let ce := (N.min (eb + LARGE) (dst + len) - dst)%N in
      if (dst <? eb)%N then Panic
      else ds_copy fs (poke m (f + (dst - eb)) (take (N.to_nat (ce - cs)) (drop (N.to_nat cs) region)))
             (dst + (ce - cs)) (drop (N.to_nat ce) region)
    else ds_copy fs m dst region
  end.
(** load, process.rs:348-419. *)
Definition ds_load (fs : list (N * N)) (m : pmem) (h : phdr) : res pmem :=
  if ph_w h then ds_copy fs m (ph_va h) (ph_bytes h) else Ok m.
(** relocate, process.rs:421-462. *)
Fixpoint ds_relocate (dbg : bool) (off : N) (fs : list (N * N)) (m : pmem) (r : rela) : res pmem :=
  match fs with
  | [] => Ok m
  | (eb, f) :: fs =>
    let addr := (off + rl_off r)%N in
    let vb := (off + eb - (off + eb) mod LARGE)%N in
    if (vb <=? addr)%N && (addr <=? vb + LARGE)%N then
      if rl_rel r then
        match rel_word dbg off r with
        | Ok v => ds_relocate dbg off fs (poke m (f + (addr - vb)) (le8 v)) r
        | Err e => Err e
        | Panic => Panic
        end
      else Err UnableToLoad
    else ds_relocate dbg off fs m r
  end.

(** A loop that stops at the first failure. *)
Fixpoint rfold {A B} (f : A -> B -> res A) (a : A) (l : list B) : res A :=
  match l with [] => Ok a | x :: l => match f a x with Ok a' => rfold f a' l | e => e end end.
Definition ds_run (dbg : bool) (off : N) (hs : list phdr) (rs : list rela) (sup : list N) (m : pmem) : res (list (N * N) * pmem) :=
  match ds_allocate hs sup with
  | Ok fs =>
    match rfold (ds_load fs) m hs with
    | Ok m1 => match rfold (ds_relocate dbg off fs) m1 rs with Ok m2 => Ok (fs, m2) | Err e => Err e | Panic => Panic end
    | Err e => Err e
    | Panic => Panic
    end
  | Err e => Err e
  | Panic => Panic
  end.

(** ** Ring3Process *)

(** map_action, arch/x86_64/process.rs:1111-1120. *)
Definition ph_action (h : phdr) : option mapact :=
  match ph_x h, ph_w h, ph_r h with
  | false, false, true => Some ma_user
  | true, false, true => Some ma_execute
  | false, true, true => Some ma_write_
  | true, true, true => Some (ma_or ma_execute ma_write_)
  | _, _, false => None
  end.
(** The loop of allocate over the pages of a header, arch/x86_64/process.rs:1147-1183. *)
Fixpoint map_pages (lg : bool) (vs : vspace) (b : N) (fs : list N) (a : mapact) : res vspace :=
  match fs with
  | [] => Ok vs
  | f :: fs =>
    match vs_map_frame lg vs b f LARGE a with
    | (vs', Ok _) => map_pages lg vs' (b + LARGE) fs a
    | _ => Panic
    end
  end.
(** allocate, arch/x86_64/process.rs:1092-1192.  [wfr]: writeable_sections, indexed from 0 for
    each header; [sup]: the large pages in the cache, used for the other headers. *)
Fixpoint p_allocate (lg : bool) (off : N) (wfr : list N) (hs : list phdr) (sup : list N) (vs : vspace) : res vspace :=
  match hs with
  | [] => Ok vs
  | h :: hs =>
    match ph_action h with
    | None => Panic
    | Some a =>
      let n := n_pages h in
      let src := if ph_w h then wfr else sup in
      if length src <? n then Panic
      else match map_pages lg vs (off + page_base h) (take n src) a with
        | Ok vs' => p_allocate lg off wfr hs (if ph_w h then sup else drop n sup) vs'
        | e => e
        end
    end
  end.
(** The loop of load, arch/x86_64/process.rs:1214-1236. *)
Fixpoint p_copy (vs : vspace) (m : pmem) (dst : N) (bs : list N) : res pmem :=
  match bs with
  | [] => Ok m
  | v :: bs =>
    match vs_resolve vs dst with
    | Ok (p, _) => p_copy vs (poke m p [v]) (dst + 1) bs
    | _ => Err UnableToLoad
    end
  end.
(** load, arch/x86_64/process.rs:1195-1246; the state is read_only_offset and memory. *)
Definition p_load (vs : vspace) (off : N) (st : N * pmem) (h : phdr) : res (N * pmem) :=
  if ph_w h then Ok st
  else match p_copy vs st.2 (off + ph_va h) (ph_bytes h) with
    | Ok m => Ok ((off + ph_va h + N.of_nat (length (ph_bytes h)))%N, m)
    | Err e => Err e
    | Panic => Panic
    end.
(** relocate, arch/x86_64/process.rs:1254-1291. *)
Definition p_relocate (dbg : bool) (vs : vspace) (off ro : N) (m : pmem) (r : rela) : res pmem :=
  if (ro <=? off + rl_off r)%N then Ok m
  else match vs_resolve vs (off + rl_off r) with
    | Ok (p, _) =>
      if rl_rel r then match rel_word dbg off r with Ok v => Ok (poke m p (le8 v)) | Err e => Err e | Panic => Panic end
      else Err UnableToLoad
    | _ => Panic
    end.
(** make_readonly, arch/x86_64/process.rs:1293-1308: only an assertion. *)
Definition p_readonly (off : N) (relro : list (N * N)) : res unit :=
  if forallb (fun s => (off + s.1 + s.2) mod BASE =? 0)%N relro then Ok tt else Panic.
(** Ring3Process::load, arch/x86_64/process.rs:1336-1374, up to e.load; at most
    MAX_WRITEABLE_SECTIONS_PER_PROCESS (process.rs:58) data frames. *)
Definition p_run (lg dbg : bool) (off : N) (hs : list phdr) (rs : list rela) (relro : list (N * N))
    (wfr sup : list N) (vs : vspace) (m : pmem) : res (vspace * pmem) :=
  if 4 <? length wfr then Err UnableToLoad
  else match p_allocate lg off wfr hs sup vs with
    | Ok vs' =>
      match rfold (p_load vs' off) (0%N, m) hs with
      | Ok (ro, m1) =>
        match rfold (p_relocate dbg vs' off ro) m1 rs with
        | Ok m2 => match p_readonly off relro with Ok _ => Ok (vs', m2) | Err e => Err e | Panic => Panic end
        | Err e => Err e
        | Panic => Panic
        end
      | Err e => Err e
      | Panic => Panic
      end
    | Err e => Err e
    | Panic => Panic
    end.

(** make_process, process.rs:533-553: the data sections first, then the process on a replica,
    whose failure panics (and so does, in debug builds, the number of data frames). *)
Definition elf_load (lg dbg : bool) (off : N) (hs : list phdr) (rs : list rela) (relro : list (N * N))
    (wsup rsup : list N) (vs : vspace) (m : pmem) : res (vspace * pmem) :=
  match ds_run dbg off hs rs wsup m with
  | Ok (fs, m1) =>
    if dbg && (4 <? length fs) then Panic
    else match p_run lg dbg off hs rs relro (map snd fs) rsup vs m1 with Ok r => Ok r | _ => Panic end
  | Err _ => Err UnableToLoad
  | Panic => Panic
  end.
