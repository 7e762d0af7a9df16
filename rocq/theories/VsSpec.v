(** Vocabulary for the properties of address spaces. *)
From Verif Require Import Base VsModel.

(** Addresses [b], ..., [b+n-1]. *)
Definition within (b n x : N) : Prop := (b <= x)%N ∧ (x < b + n)%N.

(** Rights as the hardware will enforce and report them: a mapped page is always present and
    never marked uncacheable; the rest is what was asked for. *)
Definition granted (a : mapact) : mapact :=
  MA true (ma_write a) (ma_exec a) (ma_kernel a) false (ma_alias a).

(** An access the processor lets through an entry with flags [f] (Intel SDM vol. 3, 4.6; all
    table entries above it are P|RW|US without XD): [user] mode, [write], instruction
    fetch [exec]. *)
Definition cpu_allows (f : flags) (user write exec : bool) : Prop :=
  fl_p f = true ∧ (user = true → fl_us f = true) ∧ (write = true → fl_rw f = true) ∧
  (exec = true → fl_xd f = false).

(** Address spaces reachable with frames of one page: 4 KiB, and 2 MiB unless the feature
    pages-4k is on ([lg] = false); [dbg]: debug assertions on. *)
Definition page_sized (lg : bool) (sz : N) : Prop := sz = 4096%N ∨ sz = 2097152%N ∧ lg = true.

Inductive reach (lg dbg : bool) : vspace → Prop :=
| reach_init : reach lg dbg vs_init
| reach_map s b p sz a : reach lg dbg s → page_sized lg sz → (b + sz <= 2 ^ 48)%N →
    reach lg dbg (fst (vs_map_frame lg s b p sz a))
| reach_unmap s va : reach lg dbg s → (va < 2 ^ 48)%N → reach lg dbg (fst (vs_unmap dbg s va))
| reach_adjust s va a : reach lg dbg s → (va < 2 ^ 48)%N → reach lg dbg (fst (vs_adjust s va a)).

(** Where a list of frames laid out from [b] on puts the address [x]. *)
Fixpoint laid_out (b : N) (fs : list (N * N * mapact)) (x : N) : option (N * mapact) :=
  match fs with
  | [] => None
  | (pa, sz, a) :: fs =>
      if (b <=? x)%N && (x <? b + sz)%N then Some ((pa + (x - b))%N, a) else laid_out (b + sz) fs x
  end.
