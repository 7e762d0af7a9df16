(** Vocabulary for the isolation of processes (C44). *)
From Verif Require Import Base VsModel VsSpec PrcModel PrcSpec IsoModel.

(** Process [p] can reach physical address [pa] through its address [va]. *)
Definition reaches (m : mach) (p : nat) (va pa : N) : Prop :=
  exists s r, mc_ps m !! p = Some s /\ user_translate m s va = Some (pa, r).
(** The byte a load of [p] from [va] yields, if it does not fault. *)
Definition loads (m : mach) (p : nat) (va : N) : option N :=
  match mc_ps m !! p with
  | Some s => match user_translate m s va with Some (pa, _) => Some (mc_mem m pa) | None => None end
  | None => None
  end.

(** A machine on which processes have been loaded and not run yet: the kernel's slots are in the
    upper half, private memory is in the lower half (slot 128 starts at KERNEL_BASE), no two
    processes share memory, and what is mapped is not free. *)
Record started (dbg : bool) (m : mach) : Prop := {
  st_alive : mc_dead m = false;
  st_kern : forall i, is_Some (mc_kern m !! i) -> (128 <= i)%N;
  st_prc : forall p s, mc_ps m !! p = Some s -> exists vs, s = prc_init vs /\ start_ok true dbg vs /\
    forall i, is_Some (vs_pt vs !! i) -> (i < 128)%N;
  st_apart : forall p q s t x y pa pb r r', p <> q -> mc_ps m !! p = Some s -> mc_ps m !! q = Some t ->
    (x < 2 ^ 48)%N -> (y < 2 ^ 48)%N ->
    vs_resolve (p_vs s) x = Ok (pa, r) -> vs_resolve (p_vs t) y = Ok (pb, r') -> pa <> pb;
  st_used : forall p s x pa r, mc_ps m !! p = Some s -> (x < 2 ^ 48)%N ->
    vs_resolve (p_vs s) x = Ok (pa, r) -> mc_free m (pa / 4096) = false }.

(** Requests about the lower half, without device memory; dispatchers for an existing NUMA node
    while the executor area is in the lower half. *)
Definition request_ok (m : mach) (p : nat) (c : mcall) : Prop :=
  match c with
  | CMap b size mem => match mem with
      | Some (ls, bs) => (b + N.of_nat (length ls) * LARGE + N.of_nat (length bs) * BASE <= KERNEL_BASE)%N
      | None => True
      end
  | CUnmap b => (b < KERNEL_BASE)%N
  | CMapDevice _ _ => False
  | CMapId b _ _ => (b + LARGE <= KERNEL_BASE)%N
  | CExec _ aff _ => aff < MAX_NUMA_NODES /\
      forall s, mc_ps m !! p = Some s -> (p_exoff s + LARGE <= KERNEL_BASE)%N
  | _ => True
  end.
Fixpoint requests_ok (dbg : bool) (nm : nat) (m : mach) (l : list (nat * mcall)) : Prop :=
  match l with
  | [] => True
  | (p, c) :: l => request_ok m p c /\
      match mach_step dbg nm m p c with Some (m', _) => requests_ok dbg nm m' l | None => True end
  end.
