(** Model of the address space the bootloader builds for the kernel, bootloader/src/vspace.rs.
    Page tables are represented as in [VsModel]: by their contents, an entry that is not present
    is absent.  Tables come zeroed from the firmware (allocate_one_page, vspace.rs:351-355, 430-453); running out
    of memory for them is not modelled.  Physical addresses are below 2^52 (the x86 crate asserts
    it), virtual ones are added without overflow. *)
From Verif Require Import Base VsModel.

(** MapAction, vspace.rs:17-38. *)
Inductive bact :=
| BNone | BReadUser | BReadKernel | BReadWriteUser | BReadWriteKernel
| BReadExecuteUser | BReadExecuteKernel | BReadWriteExecuteUser | BReadWriteExecuteKernel.
#[export] Instance bact_eq_dec : EqDecision bact.
Proof. solve_decision. Defined.

(** to_pdpt_rights, to_pd_rights, to_pt_rights, vspace.rs:42-87: the same up to the type. *)
Definition bl_rights (a : bact) : flags :=
  match a with
  | BNone => FL false false false false false false false
  | BReadUser => FL false false true true false false false
  | BReadKernel => FL false false false true false false false
  | BReadWriteUser => FL false true true true false false false
  | BReadWriteKernel => FL false true false true false false false
  | BReadExecuteUser => FL false false true false false false false
  | BReadExecuteKernel => FL false false false false false false false
  | BReadWriteExecuteUser => FL false true true false false false false
  | BReadWriteExecuteKernel => FL false true false false false false false
  end.
(** P | rights, with PS for large and huge pages, vspace.rs:193-196, 261-264, 319. *)
Definition bl_flags (ps : bool) (a : bact) : flags :=
  let f := bl_rights a in FL true (fl_rw f) (fl_us f) (fl_xd f) (fl_pcd f) ps (fl_u11 f).
(** P | RW, the entry of a table in the table above, vspace.rs:455-468. *)
Definition bl_table_flags : flags := FL true true false false false false false.

(** The loops over 1 GiB and over 2 MiB entries, vspace.rs:192-208, 260-276: [mk] is the entry for a
    page [mapped] bytes into the region.  512 rounds suffice because the index grows. *)
Fixpoint bl_fill {V} (fuel : nat) (sz : N) (mk : N -> V) (tab : gmap N V) (idx ps mapped : N) : gmap N V * N :=
  match fuel with
  | 0 => (tab, mapped)
  | S fuel =>
      if (mapped <? ps)%N && (sz <=? ps - mapped)%N && (idx <? 512)%N then
        bl_fill fuel sz mk (<[idx := mk mapped]> tab) (idx + 1) ps (mapped + sz)
      else (tab, mapped)
  end.

(** The loop over 4 KiB entries, vspace.rs:317-335. *)
Fixpoint bl_base (fuel : nat) (pt : gmap N leaf) (idx pb ps mapped : N) (a : bact) : res (gmap N leaf * N) :=
  match fuel with
  | 0 => Ok (pt, mapped)
  | S fuel =>
      if (mapped <? ps)%N && (idx <? 512)%N then
        match pt !! idx with
        | None => bl_base fuel (<[idx := mkLeaf (pb + mapped) (bl_flags false a)]> pt) (idx + 1) pb ps (mapped + BASE) a
        | Some _ => Panic
        end
      else Ok (pt, mapped)
  end.

(** map_generic, vspace.rs:148-347.  Running out of [fuel] is shown impossible. *)
Fixpoint bl_generic (fuel : nat) (t : gmap N (gmap N pdpte)) (vb pb ps : N) (a : bact) : res (gmap N (gmap N pdpte)) :=
  match fuel with
  | 0 => Panic
  | S fuel =>
      if negb (pb mod BASE =? 0)%N || negb (ps mod BASE =? 0)%N || negb (vb mod BASE =? 0)%N || bool_decide (a = BNone)
      then Panic
      else
        let pdpt := default ∅ (t !! i4 vb) in                                        (* :163-176 *)
        if bool_decide (pdpt !! i3 vb = None) && (vb =? SLOT * i4 vb + HUGE * i3 vb)%N
           && (pb mod HUGE =? 0)%N && (HUGE <=? ps)%N then                            (* :177-191 *)
          let '(pdpt', mapped) :=
            bl_fill 512 HUGE (fun m => P3Page (mkLeaf (pb + m) (bl_flags true a))) pdpt (i3 vb) ps 0 in
          let t' := <[i4 vb := pdpt']> t in
          if (mapped <? ps)%N then bl_generic fuel t' (vb + mapped) (pb + mapped) (ps - mapped) a else Ok t'
        else
          match match pdpt !! i3 vb with
                | None => Ok ∅ | Some (P3Tab pd) => Ok pd | Some (P3Page _) => Panic end with  (* :227-249 *)
          | Ok pd =>
              if bool_decide (pd !! i2 vb = None) && (vb =? SLOT * i4 vb + HUGE * i3 vb + LARGE * i2 vb)%N
                 && (pb mod LARGE =? 0)%N && (LARGE <=? ps)%N then                    (* :247-259 *)
                let '(pd', mapped) :=
                  bl_fill 512 LARGE (fun m => PDPage (mkLeaf (pb + m) (bl_flags true a))) pd (i2 vb) ps 0 in
                let t' := <[i4 vb := <[i3 vb := P3Tab pd']> pdpt]> t in
                if (mapped <? ps)%N then bl_generic fuel t' (vb + mapped) (pb + mapped) (ps - mapped) a else Ok t'
              else
                match match pd !! i2 vb with
                      | None => Ok ∅ | Some (PDTab pt) => Ok pt | Some (PDPage _) => Panic end with
                | Ok pt =>
                    match bl_base 512 pt (i1 vb) pb ps 0 a with
                    | Ok (pt', mapped) =>
                        let t' := <[i4 vb := <[i3 vb := P3Tab (<[i2 vb := PDTab pt']> pd)]> pdpt]> t in
                        if (mapped <? ps)%N then bl_generic fuel t' (vb + mapped) (pb + mapped) (ps - mapped) a else Ok t'
                    | _ => Panic
                    end
                | _ => Panic
                end
          | _ => Panic
          end
  end.
Definition bl_map (t : gmap N (gmap N pdpte)) (vb pb ps : N) (a : bact) : res (gmap N (gmap N pdpte)) :=
  bl_generic (S (N.to_nat (ps / BASE))) t vb pb ps a.

(** map_identity_with_offset, map_identity, vspace.rs:114-140. *)
Definition bl_map_offset (t : gmap N (gmap N pdpte)) (off pbase pend : N) (a : bact) : res (gmap N (gmap N pdpte)) :=
  if (pend <? pbase)%N then Panic else bl_map t (off + pbase) pbase (pend - pbase) a.
Definition bl_map_identity (t : gmap N (gmap N pdpte)) (pbase pend : N) (a : bact) : res (gmap N (gmap N pdpte)) :=
  bl_map_offset t 0 pbase pend a.

(** resolve_addr, vspace.rs:485-516. *)
Definition bl_resolve (t : gmap N (gmap N pdpte)) (va : N) : option N :=
  match walk t va with
  | Some (l, sz) => Some (l_pa l + va mod sz)%N
  | None => None
  end.
