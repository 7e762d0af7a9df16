(** Model of the x86-64 address space: access rights (kernel/src/memory/vspace.rs), the
    four-level page table (kernel/src/arch/x86_64/vspace/page_table.rs) and the
    bookkeeping around it (kernel/src/arch/x86_64/vspace/mod.rs). *)
From Verif Require Import Base.

(** BASE_PAGE_SIZE, LARGE_PAGE_SIZE, HUGE_PAGE_SIZE, PML4_SLOT_SIZE of the x86 crate. *)
Definition BASE : N := 4096.
Definition LARGE : N := 2097152.
Definition HUGE : N := 1073741824.
Definition SLOT : N := 549755813888.

(** MapAction, memory/vspace.rs:232-256. *)
Record mapact := MA {
  ma_present : bool; ma_write : bool; ma_exec : bool;
  ma_kernel : bool; ma_nocache : bool; ma_alias : bool }.
#[export] Instance mapact_eq_dec : EqDecision mapact.
Proof. solve_decision. Defined.

(** Constructors, vspace.rs:258-341. *)
Definition ma_none := MA false false false false false false.
Definition ma_user := MA true false false false false false.
Definition ma_kernel_ := MA true false false true false false.
Definition ma_write_ := MA true true false false false false.
Definition ma_execute := MA true false true false false false.
Definition ma_no_cache := MA true false false false true false.
Definition ma_aliased := MA false false false false false true.

(** BitOr, vspace.rs:409-421. *)
Definition ma_or (a b : mapact) : mapact :=
  MA (ma_present a || ma_present b) (ma_write a || ma_write b) (ma_exec a || ma_exec b)
     (ma_kernel a || ma_kernel b) (ma_nocache a || ma_nocache b) (ma_alias a || ma_alias b).

(** The bits of a page-table entry the code uses (PTFlags, PDFlags, PDPTFlags of the x86
    crate): P, RW, US, XD, PCD, PS, USER_11. *)
Record flags := FL {
  fl_p : bool; fl_rw : bool; fl_us : bool; fl_xd : bool; fl_pcd : bool; fl_ps : bool; fl_u11 : bool }.

(** to_pdpt_rights, to_pd_rights, to_pt_rights, vspace/mod.rs:216-288: the three functions
    differ only in the type of the result. *)
Definition to_rights (a : mapact) : flags :=
  FL (ma_present a) (ma_write a) (negb (ma_kernel a)) (negb (ma_exec a)) false false (ma_alias a).

(** Flags of an installed entry: [P | rights], with [PS] for large and huge pages
    (page_table.rs:404-408, 495-498, 578, 769, 794, 813). *)
Definition entry_flags (ps : bool) (a : mapact) : flags :=
  let f := to_rights a in
  FL true (fl_rw f) (fl_us f) (fl_xd f) (fl_pcd f) ps (fl_u11 f).

(** From<PTFlags>, From<PDFlags>, From<PDPTFlags> for MapAction, vspace/mod.rs:290-400
    (identical up to the type). *)
Definition from_flags (f : flags) : mapact :=
  let ma := ma_or ma_none (if fl_us f then ma_user else ma_kernel_) in
  let ma := if fl_p f then ma_or ma ma_user else ma in
  let ma := if fl_rw f then ma_or ma ma_write_ else ma in
  let ma := if negb (fl_xd f) then ma_or ma ma_execute else ma in
  let ma := if fl_pcd f then ma_or ma ma_no_cache else ma in
  if fl_u11 f then ma_or ma ma_aliased else ma.

(** ** The page table *)

(** A present entry that maps a page: address and flags.  The model keeps the two apart
    (the x86 crate packs them in one word and asserts that the address is page aligned
    and below 2^52). *)
Record leaf := mkLeaf { l_pa : N; l_fl : flags }.

(** Present entries of a page directory and of a PDPT: a page (PS set) or the next table.
    An entry that is not present is absent from the map; the code only ever writes the
    zero entry there.  A table is represented by its contents; its physical address
    (fresh memory from the allocator, page_table.rs:822-853) is not represented. *)
Inductive pde := PDPage (l : leaf) | PDTab (pt : gmap N leaf).
Inductive pdpte := P3Page (l : leaf) | P3Tab (pd : gmap N pde).

(** pml4_index, pdpt_index, pd_index, pt_index of the x86 crate. *)
Definition i4 (va : N) : N := ((va / SLOT) mod 512)%N.
Definition i3 (va : N) : N := ((va / HUGE) mod 512)%N.
Definition i2 (va : N) : N := ((va / LARGE) mod 512)%N.
Definition i1 (va : N) : N := ((va / BASE) mod 512)%N.

(** The nested tests of resolve, page_table.rs:120-159: the entry that translates [va] and
    the size of its page. *)
Definition walk (t : gmap N (gmap N pdpte)) (va : N) : option (leaf * N) :=
  match t !! i4 va with
  | None => None
  | Some pdpt =>
      match pdpt !! i3 va with
      | None => None
      | Some (P3Page l) => Some (l, HUGE)
      | Some (P3Tab pd) =>
          match pd !! i2 va with
          | None => None
          | Some (PDPage l) => Some (l, LARGE)
          | Some (PDTab pt) =>
              match pt !! i1 va with
              | None => None
              | Some l => Some (l, BASE)
              end
          end
      end
  end.

(** resolve, page_table.rs:120-159: address() + {huge,large,base}_page_offset and the
    rights. *)
Definition pt_resolve (t : gmap N (gmap N pdpte)) (va : N) : res (N * mapact) :=
  match walk t va with
  | Some (l, sz) => Ok ((l_pa l + va mod sz)%N, from_flags (l_fl l))
  | None => Err NotMapped
  end.

(** The test [address != pbase + mapped || cur_rights != rights] on a present page entry
    (page_table.rs:396-400, 487-491, 569-573). *)
Definition leaf_conflict (l : leaf) (pa : N) (a : mapact) : bool :=
  negb ((l_pa l =? pa)%N && bool_decide (from_flags (l_fl l) = a)).

(** insert_base_mappings, loop of page_table.rs:551-584, with [insert_mapping] = true (all
    callers pass true).  [fuel] bounds the iterations; 512 suffice because the index
    grows.  Result: the table and the number of bytes mapped. *)
Fixpoint base_loop (fuel : nat) (pt : gmap N leaf) (idx pb ps mapped : N) (a : mapact)
  : res (gmap N leaf * N) :=
  match fuel with
  | 0 => Ok (pt, mapped)
  | S fuel =>
      if (mapped <? ps)%N && (idx <? 512)%N then
        if match pt !! idx with Some l => leaf_conflict l (pb + mapped) a | None => false end
        then Panic
        else base_loop fuel (<[idx := mkLeaf (pb + mapped) (entry_flags false a)]> pt)
               (idx + 1) pb ps (mapped + BASE) a
      else Ok (pt, mapped)
  end.

(** insert_large_mappings, loop of page_table.rs:470-511.  A present entry that is a table
    has an address (memory owned by the page table) different from the frame that is being
    mapped, so it is a conflict. *)
Fixpoint large_loop (fuel : nat) (pd : gmap N pde) (idx pb ps mapped : N) (a : mapact)
  : res (gmap N pde * N) :=
  match fuel with
  | 0 => Ok (pd, mapped)
  | S fuel =>
      if (mapped <? ps)%N && (LARGE <=? ps - mapped)%N && (idx <? 512)%N then
        if match pd !! idx with
           | Some (PDPage l) => leaf_conflict l (pb + mapped) a
           | Some (PDTab _) => true
           | None => false
           end
        then Panic
        else large_loop fuel (<[idx := PDPage (mkLeaf (pb + mapped) (entry_flags true a))]> pd)
               (idx + 1) pb ps (mapped + LARGE) a
      else Ok (pd, mapped)
  end.

(** insert_huge_mappings, loop of page_table.rs:381-424. *)
Fixpoint huge_loop (fuel : nat) (pdpt : gmap N pdpte) (idx pb ps mapped : N) (a : mapact)
  : res (gmap N pdpte * N) :=
  match fuel with
  | 0 => Ok (pdpt, mapped)
  | S fuel =>
      if (mapped <? ps)%N && (HUGE <=? ps - mapped)%N && (idx <? 512)%N then
        if match pdpt !! idx with
           | Some (P3Page l) => leaf_conflict l (pb + mapped) a
           | Some (P3Tab _) => true
           | None => false
           end
        then Panic
        else huge_loop fuel (<[idx := P3Page (mkLeaf (pb + mapped) (entry_flags true a))]> pdpt)
               (idx + 1) pb ps (mapped + HUGE) a
      else Ok (pdpt, mapped)
  end.

(** The loops over all 512 entries of a table, page_table.rs:279-281, 346-348. *)
Definition tab_empty {A} (m : gmap N A) : bool :=
  forallb (fun i => match m !! i with None => true | Some _ => false end) (map N.of_nat (seq 0 512)).

(** can_map_as_huge_page, page_table.rs:245-295: an empty page directory below the slot is
    given up.  A present 1 GiB page is not tested for: its frame would be read as a page
    directory, which the model counts as a panic. *)
Definition can_huge (pdpt : gmap N pdpte) (vb pb ps : N) : res (bool * gmap N pdpte) :=
  if negb (vb =? SLOT * i4 vb + HUGE * i3 vb)%N || negb (pb mod HUGE =? 0)%N || negb (HUGE <=? ps)%N
  then Ok (false, pdpt)
  else match pdpt !! i3 vb with
       | None => Ok (true, pdpt)
       | Some (P3Tab pd) =>
           if tab_empty pd then Ok (true, delete (i3 vb) pdpt) else Ok (false, pdpt)
       | Some (P3Page _) => Panic
       end.

(** can_map_as_large_page, page_table.rs:297-362; [lg] = false with the feature pages-4k.
    The same remark holds for a present 2 MiB page. *)
Definition can_large (lg : bool) (pd : gmap N pde) (vb pb ps : N) : res (bool * gmap N pde) :=
  if negb lg || negb (vb =? SLOT * i4 vb + HUGE * i3 vb + LARGE * i2 vb)%N
     || negb (pb mod LARGE =? 0)%N || negb (LARGE <=? ps)%N
  then Ok (false, pd)
  else match pd !! i2 vb with
       | None => Ok (true, pd)
       | Some (PDTab pt) =>
           if tab_empty pt then Ok (true, delete (i2 vb) pd) else Ok (false, pd)
       | Some (PDPage _) => Panic
       end.

(** map_generic, page_table.rs:617-732, and the tails of the three insert functions
    (:426-447, :509-530, :585-603), which call map_generic again for the rest of the
    region.  [n] counts the tables allocated (new_pdpt, new_pd, new_pt); running out of
    memory for them is not modelled.  Running out of [fuel] is shown impossible. *)
Fixpoint map_generic (lg : bool) (fuel : nat) (t : gmap N (gmap N pdpte)) (n : nat)
    (vb pb ps : N) (a : mapact) : res (gmap N (gmap N pdpte) * nat) :=
  match fuel with
  | 0 => Panic
  | S fuel =>
      if negb (pb mod BASE =? 0)%N || negb (vb mod BASE =? 0)%N || negb (ps mod BASE =? 0)%N
      then Panic
      else
        (* get_or_alloc_pdpt, :229-242 *)
        let '(pdpt, n) := match t !! i4 vb with Some p => (p, n) | None => (∅, S n) end in
        match can_huge pdpt vb pb ps with
        | Ok (true, pdpt) =>
            match huge_loop 512 pdpt (i3 vb) pb ps 0 a with
            | Ok (pdpt', mapped) =>
                let t' := <[i4 vb := pdpt']> t in
                if (mapped =? ps)%N then Ok (t', n)
                else map_generic lg fuel t' n (vb + mapped) (pb + mapped) (ps - mapped) a
            | _ => Panic
            end
        | Ok (false, pdpt) =>
            match match pdpt !! i3 vb with
                  | None => Ok (∅, S n)
                  | Some (P3Tab pd) => Ok (pd, n)
                  | Some (P3Page _) => Panic
                  end with
            | Ok (pd, n) =>
                match can_large lg pd vb pb ps with
                | Ok (true, pd) =>
                    match large_loop 512 pd (i2 vb) pb ps 0 a with
                    | Ok (pd', mapped) =>
                        let t' := <[i4 vb := <[i3 vb := P3Tab pd']> pdpt]> t in
                        if (mapped =? ps)%N then Ok (t', n)
                        else map_generic lg fuel t' n (vb + mapped) (pb + mapped) (ps - mapped) a
                    | _ => Panic
                    end
                | Ok (false, pd) =>
                    match match pd !! i2 vb with
                          | None => Ok (∅, S n)
                          | Some (PDTab pt) => Ok (pt, n)
                          | Some (PDPage _) => Panic
                          end with
                    | Ok (pt, n) =>
                        match base_loop 512 pt (i1 vb) pb ps 0 a with
                        | Ok (pt', mapped) =>
                            let t' := <[i4 vb := <[i3 vb := P3Tab (<[i2 vb := PDTab pt']> pd)]> pdpt]> t in
                            if (mapped =? ps)%N then Ok (t', n)
                            else map_generic lg fuel t' n (vb + mapped) (pb + mapped) (ps - mapped) a
                        | _ => Panic
                        end
                    | _ => Panic
                    end
                | _ => Panic
                end
            | _ => Panic
            end
        | _ => Panic
        end
  end.

(** PageTable::map_frame, page_table.rs:88-104 (debug assertions are implied by the
    checks of VSpace::map_frame). *)
Definition pt_map (lg : bool) (t : gmap N (gmap N pdpte)) (vb pb ps : N) (a : mapact)
  : res (gmap N (gmap N pdpte) * nat) :=
  map_generic lg (S (N.to_nat (ps / BASE))) t 0 vb pb ps a.

(** Modify, page_table.rs:26-31. *)
Inductive modify := MUpdate (a : mapact) | MUnmap.

(** What modify_generic writes for the entry it found. *)
Definition mod_leaf (ps : bool) (m : modify) (l : leaf) : option leaf :=
  match m with
  | MUnmap => None
  | MUpdate a => Some (mkLeaf (l_pa l) (entry_flags ps a))
  end.
Definition put {A} (m : gmap N A) (k : N) (x : option A) : gmap N A :=
  match x with Some x => <[k := x]> m | None => delete k m end.

(** modify_generic, page_table.rs:744-820. *)
Definition modify_generic (t : gmap N (gmap N pdpte)) (va : N) (m : modify)
  : gmap N (gmap N pdpte) * res (N * N * N * mapact) :=
  match t !! i4 va with
  | None => (t, Err NotMapped)
  | Some pdpt =>
      match pdpt !! i3 va with
      | None => (t, Err NotMapped)
      | Some (P3Page l) =>
          (<[i4 va := put pdpt (i3 va) (P3Page <$> mod_leaf true m l)]> t,
           Ok ((va - va mod HUGE)%N, l_pa l, HUGE, from_flags (l_fl l)))
      | Some (P3Tab pd) =>
          match pd !! i2 va with
          | None => (t, Err NotMapped)
          | Some (PDPage l) =>
              (<[i4 va := <[i3 va := P3Tab (put pd (i2 va) (PDPage <$> mod_leaf true m l))]> pdpt]> t,
               Ok ((va - va mod LARGE)%N, l_pa l, LARGE, from_flags (l_fl l)))
          | Some (PDTab pt) =>
              match pt !! i1 va with
              | None => (t, Err NotMapped)
              | Some l =>
                  (<[i4 va := <[i3 va := P3Tab (<[i2 va := PDTab (put pt (i1 va) (mod_leaf false m l))]> pd)]> pdpt]> t,
                   Ok ((va - va mod BASE)%N, l_pa l, BASE, from_flags (l_fl l)))
              end
          end
      end
  end.

(** unmap and adjust, page_table.rs:161-167, 111-118. *)
Definition pt_unmap (t : gmap N (gmap N pdpte)) (va : N) : gmap N (gmap N pdpte) * res (N * N * N * mapact) :=
  if negb (va mod BASE =? 0)%N then (t, Err InvalidBase) else modify_generic t va MUnmap.
Definition pt_adjust (t : gmap N (gmap N pdpte)) (va : N) (a : mapact) : gmap N (gmap N pdpte) * res (N * N) :=
  if negb (va mod BASE =? 0)%N then (t, Err InvalidBase)
  else match modify_generic t va (MUpdate a) with
       | (t', Ok (vb, _, sz, _)) => (t', Ok (vb, sz))
       | (t', Err e) => (t', Err e)
       | (t', Panic) => (t', Panic)
       end.

(** ** VSpace *)

(** MappingInfo, memory/vspace.rs:105-130 (the mapping type is never read); a frame is its
    base and size. *)
Record minfo := mkMI { mi_pa : N; mi_size : N; mi_rights : mapact }.

(** VSpace, vspace/mod.rs:107-110. *)
Record vspace := mkVS { vs_map : gmap N minfo; vs_pt : gmap N (gmap N pdpte) }.
Definition vs_init : vspace := mkVS ∅ ∅.

(** First element of [mappings.range((Unbounded, Excluded(e))).rev()]: the entry with the
    greatest key below [e] (mod.rs:131-135, 172-174). *)
Definition last_below (m : gmap N minfo) (e : N) : option (N * minfo) :=
  foldr (fun '(k, x) acc =>
    if (k <? e)%N then
      match acc with
      | Some (k', _) => if (k' <? k)%N then Some (k, x) else acc
      | None => Some (k, x)
      end
    else acc) None (map_to_list m).

(** VSpace::map_frame, mod.rs:114-159.  The loop inspects the first element only: it
    either breaks or returns.  Address arithmetic is unbounded (no wrap-around of the sum
    [base + size]); a failing reservation in [try_insert] is not modelled. *)
Definition vs_map_frame (lg : bool) (s : vspace) (base pa sz : N) (a : mapact) : vspace * res unit :=
  if (sz =? 0)%N then (s, Err InvalidFrame)
  else if negb (pa mod sz =? 0)%N then (s, Err InvalidFrame)
  else if negb (base mod sz =? 0)%N then (s, Err InvalidBase)
  else
    let insert :=
      match pt_map lg (vs_pt s) base pa sz a with
      | Ok (t, _) => (mkVS (<[base := mkMI pa sz a]> (vs_map s)) t, Ok tt)
      | Err e => (mkVS (<[base := mkMI pa sz a]> (vs_map s)) (vs_pt s), Err e)
      | Panic => (s, Panic)
      end in
    match last_below (vs_map s) (base + sz) with
    | Some (eb, mi) =>
        if (eb + mi_size mi <=? base)%N then insert
        else if (eb =? base)%N && (mi_pa mi =? pa)%N && (mi_size mi <=? sz)%N
                && bool_decide (mi_rights mi = a)
             then (s, Ok tt)
             else (s, Err (AlreadyMapped eb))
    | None => insert
    end.

(** VSpace::resolve, mod.rs:167-169. *)
Definition vs_resolve (s : vspace) (va : N) : res (N * mapact) := pt_resolve (vs_pt s) va.

(** VSpace::unmap, mod.rs:171-187.  [dbg]: debug assertions are on.  The result is the
    flush handle: virtual address, physical address, size, rights. *)
Definition vs_unmap (dbg : bool) (s : vspace) (base : N) : vspace * res (N * N * N * mapact) :=
  let go :=
    match pt_unmap (vs_pt s) base with
    | (t, Ok (vb, pa, sz, a)) =>
        if dbg && bool_decide (vs_map s !! vb = None) then (s, Panic)
        else (mkVS (delete vb (vs_map s)) t, Ok (vb, pa, sz, a))
    | (t, Err e) => (s, Err e)
    | (t, Panic) => (s, Panic)
    end in
  match last_below (vs_map s) (base + 1) with
  | Some (eb, mi) =>
      if (eb <=? base)%N && (base <? eb + mi_size mi)%N then go else (s, Err NotMapped)
  | None => go
  end.

(** VSpace::adjust, mod.rs:189-194. *)
Definition vs_adjust (s : vspace) (base : N) (a : mapact) : vspace * res (N * N) :=
  match pt_adjust (vs_pt s) base a with
  | (t, Ok (vb, sz)) =>
      match vs_map s !! vb with
      | Some mi => (mkVS (<[vb := mkMI (mi_pa mi) (mi_size mi) a]> (vs_map s)) t, Ok (vb, sz))
      | None => (mkVS (vs_map s) t, Err NotMapped)
      end
  | (t, Err e) => (s, Err e)
  | (t, Panic) => (s, Panic)
  end.

(** AddressSpace::map_frames, memory/vspace.rs:146-158, with the checked 64-bit addition;
    [base] is the base of the whole call, reported in the error. *)
Fixpoint vs_map_frames (lg : bool) (s : vspace) (base cur : N) (fs : list (N * N * mapact))
  : vspace * res unit :=
  match fs with
  | [] => (s, Ok tt)
  | (pa, sz, a) :: fs =>
      match vs_map_frame lg s cur pa sz a with
      | (s', Ok _) =>
          if (cur + sz <? 2 ^ 64)%N then vs_map_frames lg s' base (cur + sz) fs
          else (s', Err (BaseOverflow base))
      | r => r
      end
  end.
