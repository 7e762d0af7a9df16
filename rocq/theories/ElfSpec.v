(** Vocabulary for loading a program (C42). *)
From Verif Require Import Base VsModel VsSpec ElfModel.

(** The 2 MiB pages a header touches, by number. *)
Definition on_page (h : phdr) (k : N) : Prop :=
  (ph_va h / LARGE <= k /\ k < ph_va h / LARGE + N.of_nat (n_pages h))%N.
(** [a] is an address of the segment; one whose content comes from the file. *)
Definition in_seg (h : phdr) (a : N) : Prop := within (ph_va h) (ph_memsz h) a.
Definition in_file (h : phdr) (a : N) : Prop := within (ph_va h) (N.of_nat (length (ph_bytes h))) a.
(** A relocation changes the byte at [a]. *)
Definition covers (r : rela) (a : N) : Prop := within (rl_off r) 8 a.
(** The rights the flags of a header ask for. *)
Definition seg_rights (h : phdr) : mapact := MA true (ph_w h) (ph_x h) false false false.

(** The end of the file content of the last read-only header. *)
Definition ro_end (hs : list phdr) : N :=
  foldl (fun e h => if ph_w h then e else (ph_va h + N.of_nat (length (ph_bytes h)))%N) 0%N hs.

(** The layout the loader supports, at load address [off]:
    - all headers are readable, their content fits and lies in the 48 bit address space;
    - no two headers touch the same 2 MiB page;
    - at most one header is writable, and it touches at most 4 pages. *)
Record layout_ok (off : N) (hs : list phdr) : Prop := {
  lo_off : (off mod LARGE = 0)%N;
  lo_hdr : Forall (fun h => ph_r h = true /\ N.of_nat (length (ph_bytes h)) <= ph_memsz h /\ off + ph_va h + ph_memsz h + LARGE <= 2 ^ 48)%N hs;
  lo_apart : forall i j h g k, hs !! i = Some h -> hs !! j = Some g -> on_page h k -> on_page g k -> i = j;
  lo_one : forall i j h g, hs !! i = Some h -> hs !! j = Some g -> ph_w h = true -> ph_w g = true -> i = j;
  lo_four : Forall (fun h => ph_w h = true -> n_pages h <= 4) hs }.

(** The relocations it supports: relative ones of aligned words inside a header, each word at
    most once; those of read-only headers lie before the end of the last one; and none is
    exactly at the end of a page of the writable header. *)
Record relocs_ok (off : N) (hs : list phdr) (rs : list rela) : Prop := {
  ro_nodup : NoDup (map rl_off rs);
  ro_each : Forall (fun r => rl_rel r = true /\ off + rl_add r < 2 ^ 64 /\ rl_off r mod 8 = 0)%N rs;
  ro_in : Forall (fun r => exists h, h ∈ hs /\ in_seg h (rl_off r) /\ in_seg h (rl_off r + 7) /\ (ph_w h = false -> rl_off r < ro_end hs)%N) rs;
  ro_edge : forall r h k, r ∈ rs -> h ∈ hs -> ph_w h = true -> on_page h k -> (rl_off r <> (k + 1) * LARGE)%N }.

(** The large pages supplied: aligned, different, and enough of them. *)
Definition demand (b : bool) (hs : list phdr) : nat := list_sum (map (fun h => if Bool.eqb (ph_w h) b then n_pages h else 0) hs).
Record supply_ok (hs : list phdr) (wsup rsup : list N) : Prop := {
  su_al : Forall (fun f => f mod LARGE = 0)%N (wsup ++ rsup);
  su_nodup : NoDup (wsup ++ rsup);
  su_w : demand true hs <= length wsup;
  su_r : demand false hs <= length rsup }.
