(** Model of the C library's memory functions malloc, calloc, realloc, free and
    posix_memalign (lib/vibrio/src/rumprt/crt/mem.rs:213-342) on the user-space heap
    (lib/vibrio/src/mem.rs:136-336), with the contents of memory.

    The pagers and their loops are those of [PgModel]; the kernel's answers are inputs.
    The slab allocator (external crate slabmalloc) appears as in [HeapModel]: it returns any
    slot it likes of the right size class, on a page of the calling core's allocator, that is
    free and aligned, or claims to be exhausted; once it has been given a fresh page it
    returns a slot.  A free clears the slot at the address's index in the page the address is
    on, whichever core calls it.  Its size classes are powers of two from 8 to 128 KiB; those
    up to [mb] (slabmalloc's MAX_BASE_ALLOC_SIZE) are on base pages, the others on large
    pages.  Its own meta data at the end of a page is not part of the modelled contents.

    One call is one step (a core's allocator is locked during a call, except between the
    pages of a big allocation).  [chk]: arithmetic overflow panics (it wraps otherwise). *)
From Verif Require Import Base MemModel HeapModel PgModel.
Open Scope N_scope.

(** The pagers, the slab pages ([zp_core]: whose allocator; [zp_aff] is not used), and the
    contents of memory, byte by byte. *)
Record uh := mkUh { u_pg : pgs; u_zone : list zpage; u_mem : N -> N }.
(** Nothing allocated (mem.rs:114-125, 296-308). *)
Definition uh_init : uh := mkUh pgs_init [] (fun _ => 0).

(** Stores and loads of a [u64] (little endian), and the copying and zeroing of ranges. *)
Definition put64 (a v : N) (m : N -> N) : N -> N :=
  fun x => if decide (a <= x < a + 8) then (v / 256 ^ (x - a)) mod 256 else m x.
Fixpoint load (m : N -> N) (a : N) (n : nat) : N :=
  match n with O => 0 | S n => m a + 256 * load m (a + 1) n end.
Definition get64 (m : N -> N) (a : N) : N := load m a 8.
Definition copy (src dst n : N) (m : N -> N) : N -> N :=
  fun x => if decide (dst <= x < dst + n) then m (src + (x - dst)) else m x.
Definition zero (dst n : N) (m : N -> N) : N -> N :=
  fun x => if decide (dst <= x < dst + n) then 0 else m x.

(** The slots the slab allocator of a core may return for a layout. *)
Definition uslot_ok (mb : N) (core : nat) (size align : N) (p : zpage) (x : N) : bool :=
  bool_decide (zp_core p = core /\ zp_class p = class_of size /\ x ∈ zp_slots mb p /\ x ∉ zp_used p /\ x mod align = 0).
Definition use_uslot (mb : N) (core : nat) (size align : N) (zs : list zpage) (c : choice) : option (N * list zpage) :=
  match c with
  | Some (i, x) =>
    match zs !! i with
    | Some p => if uslot_ok mb core size align p x
                then Some (x, <[i := mkZp (zp_core p) (zp_aff p) (zp_class p) (zp_base p) (x :: zp_used p)]> zs) else None
    | None => None
    end
  | None => None
  end.

(** mem.rs:186-241, [alloc] of the core's allocator; [None] is the null pointer.
    [c1], [c2]: the slab allocator's choices before and after a refill (if the second is not
    possible, it is the first slot of the new page). *)
Definition u_alloc (chk : bool) (mb : N) (core : nat) (size align : N) (kss : nat -> nat -> bool) (c1 c2 : choice) (s : uh)
    : res (option N) * uh :=
  if decide (size <= MAX_ZONE) then
    match use_uslot mb core size align (u_zone s) c1 with
    | Some (x, zs) => (Ok (Some x), mkUh (u_pg s) zs (u_mem s))
    | None =>
      match pg_try chk (u_pg s) core (bool_decide (mb < size)) (kss O) with
      | (Ok (Some b), pg) =>
        let zs := mkZp core 0 (class_of size) b [] :: u_zone s in
        match use_uslot mb core size align zs c2 with
        | Some (x, zs') => (Ok (Some x), mkUh pg zs' (u_mem s))
        | None => match use_uslot mb core size align zs (Some (O, b)) with
                  | Some (x, zs') => (Ok (Some x), mkUh pg zs' (u_mem s))
                  | None => (Panic, mkUh pg zs (u_mem s))
                  end
        end
      | (Ok None, pg) => (Ok None, mkUh pg (u_zone s) (u_mem s))
      | (_, pg) => (Panic, mkUh pg (u_zone s) (u_mem s))
      end
    end
  else if decide (size <= LARGE_PAGE) then
    match pg_try chk (u_pg s) core true (kss O) with
    | (Ok (Some b), pg) => (Ok (Some b), mkUh pg (u_zone s) (u_mem s))
    | (_, pg) => (Panic, mkUh pg (u_zone s) (u_mem s))
    end
  else
    match pg_big chk (u_pg s) core size kss with
    | (Ok r, pg) => (Ok r, mkUh pg (u_zone s) (u_mem s))
    | (_, pg) => (Panic, mkUh pg (u_zone s) (u_mem s))
    end.

(** mem.rs:265-290 [dealloc]; pages and big blocks are not taken back. *)
Definition u_dealloc (mb : N) (ptr : option N) (size : N) (s : uh) : res unit * uh :=
  if decide (size <= MAX_ZONE) then
    match ptr with
    | None => (Ok tt, s)
    | Some p => match zone_free mb (class_of size) p (u_zone s) with
                | Ok zs => (Ok tt, mkUh (u_pg s) zs (u_mem s))
                | _ => (Panic, s)
                end
    end
  else (Ok tt, s).

(** mem.rs:244-263 [realloc] (slabmalloc's get_max_size is the size class). *)
Definition u_realloc (chk : bool) (mb : N) (core : nat) (ptr : option N) (size align new_size : N)
    (kss : nat -> nat -> bool) (c1 c2 : choice) (s : uh) : res (option N) * uh :=
  if decide (size <= MAX_ZONE /\ new_size <= class_of size) then (Ok ptr, s)
  else match u_alloc chk mb core new_size align kss c1 c2 s with
       | (Ok (Some q), s1) =>
         let m := match ptr with Some p => copy p q (N.min size new_size) (u_mem s1) | None => u_mem s1 end in
         match u_dealloc mb ptr size (mkUh (u_pg s1) (u_zone s1) m) with
         | (Ok _, s2) => (Ok (Some q), s2)
         | (_, s2) => (Panic, s2)
         end
       | r => r
       end.

(** ** The C functions.  The results are C pointers, [None] is NULL. *)

(** crt/mem.rs:249. *)
Definition HEADER : N := 16.
(** Additions and multiplications of [usize]. *)
Definition usize (chk : bool) (n : N) : res N :=
  if decide (n < 2 ^ 64) then Ok n else if chk then Panic else Ok (n mod 2 ^ 64).

(** A header in a fresh block (the tail of each function). *)
Definition with_header (n : N) (a : res (option N) * uh) : res (option N) * uh :=
  match a with
  | (Ok (Some b), s) => (Ok (Some (b + HEADER)), mkUh (u_pg s) (u_zone s) (put64 b n (u_mem s)))
  | _ => a
  end.

(** crt/mem.rs:255-272. *)
Definition c_malloc (chk : bool) (mb : N) (core : nat) (size : N) (kss : nat -> nat -> bool) (c1 c2 : choice) (s : uh) : res (option N) * uh :=
  match usize chk (size + HEADER) with
  | Ok n => with_header n (u_alloc chk mb core n 8 kss c1 c2 s)
  | _ => (Panic, s)
  end.
(** crt/mem.rs:274-292; alloc_zeroed is GlobalAlloc's: alloc, then zero the block. *)
Definition c_calloc (chk : bool) (mb : N) (core : nat) (nmem size : N) (kss : nat -> nat -> bool) (c1 c2 : choice) (s : uh) : res (option N) * uh :=
  match usize chk (nmem * size) with
  | Ok t =>
    match usize chk (t + HEADER) with
    | Ok n => with_header n (match u_alloc chk mb core n 8 kss c1 c2 s with
                             | (Ok (Some b), s1) => (Ok (Some b), mkUh (u_pg s1) (u_zone s1) (zero b n (u_mem s1)))
                             | r => r
                             end)
    | _ => (Panic, s)
    end
  | _ => (Panic, s)
  end.
(** crt/mem.rs:213-247; the result is the pointer stored in the caller's variable (NULL when
    it returns 1). *)
Definition c_memalign (chk : bool) (mb : N) (core : nat) (align size : N) (kss : nat -> nat -> bool) (c1 c2 : choice) (s : uh) : res (option N) * uh :=
  match usize chk (size + HEADER) with
  | Ok n => with_header n (u_alloc chk mb core n (N.max align 8) kss c1 c2 s)
  | _ => (Panic, s)
  end.
(** crt/mem.rs:297-309. *)
Definition c_free (mb : N) (ptr : option N) (s : uh) : res unit * uh :=
  match ptr with
  | None => (Ok tt, s)
  | Some p => u_dealloc mb (Some (p - HEADER)) (get64 (u_mem s) (p - HEADER)) s
  end.
(** crt/mem.rs:315-342; when no memory is left the header is stored through the null
    pointer, which ends the process: a panic here. *)
Definition c_realloc (chk : bool) (mb : N) (core : nat) (ptr : option N) (new_size : N) (kss : nat -> nat -> bool) (c1 c2 : choice) (s : uh)
    : res (option N) * uh :=
  let '(orig, old) := match ptr with
                      | None => (None, 0)
                      | Some p => (Some (p - HEADER), get64 (u_mem s) (p - HEADER))
                      end in
  match usize chk (new_size + HEADER) with
  | Ok n => match with_header n (u_realloc chk mb core orig old 8 n kss c1 c2 s) with
            | (Ok None, s1) => (Panic, s1)
            | r => r
            end
  | _ => (Panic, s)
  end.
