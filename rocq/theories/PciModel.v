(** Model of kernel/src/pci.rs: the table of PCI devices and the functions with which drivers take devices from it.
    The threads that call claim_device and claim_devices are a transition system: each round of their loops, which holds the lock of
    one device, is one step. *)
From Verif Require Import Base.
Local Open Scope N_scope.

(** A device of the crate driverkit: its address on the bus, which tells devices apart, vendor_id and device_id. *)
Record dev := Dev { d_addr : N; d_vendor : N; d_id : N }.
Global Instance dev_eq_dec : EqDecision dev.
Proof. solve_decision. Defined.

(** MAX_PCI_DEVICES, pci.rs:16-20. *)
Definition MAX_PCI_DEVICES : nat := 24.

(** PCI_DEVICES, pci.rs:22-34: ArrayVec::push panics when the array is full. *)
Definition pci_init (found : list dev) : res (list (option dev)) :=
  if (length found <=? MAX_PCI_DEVICES)%nat then Ok (map Some found) else Panic.

Inductive call := One (v d : N) | Many (v d : N).
Definition wants (c : call) (x : dev) : bool :=
  match c with One v d | Many v d => (d_vendor x =? v) && (d_id x =? d) end.

(** A thread: idle, or before round [i] of its call, with the devices in its vector. *)
Inductive thr := TIdle | TScan (c : call) (i : nat) (acc : list dev).

(** [p_log]: the calls that returned, with their results. *)
Record pst := Pst { p_tab : list (option dev); p_thr : nat -> thr; p_log : list (nat * call * list dev) }.
Definition pst0 (tab : list (option dev)) : pst := Pst tab (fun _ => TIdle) [].

Definition set_thr (f : nat -> thr) (t : nat) (x : thr) : nat -> thr := fun y => if Nat.eqb y t then x else f y.

(** One round: claim_device, pci.rs:37-47, claim_devices, pci.rs:50-63.  An idle thread calls [c].
    The allocation of the vector of claim_devices, which panics when the kernel is out of memory, is left out. *)
Definition pci_step (t : nat) (c : call) (s : pst) : pst :=
  match p_thr s t with
  | TIdle => Pst (p_tab s) (set_thr (p_thr s) t (TScan c 0 [])) (p_log s)
  | TScan c i acc =>
      match p_tab s !! i with
      | None => Pst (p_tab s) (set_thr (p_thr s) t TIdle) (p_log s ++ [(t, c, acc)])
      | Some None => Pst (p_tab s) (set_thr (p_thr s) t (TScan c (S i) acc)) (p_log s)
      | Some (Some x) =>
          if wants c x then
            match c with
            | One _ _ => Pst (<[i := None]> (p_tab s)) (set_thr (p_thr s) t TIdle) (p_log s ++ [(t, c, [x])])
            | Many _ _ => Pst (<[i := None]> (p_tab s)) (set_thr (p_thr s) t (TScan c (S i) (acc ++ [x]))) (p_log s)
            end
          else Pst (p_tab s) (set_thr (p_thr s) t (TScan c (S i) acc)) (p_log s)
      end
  end.

Definition pci_run (l : list (nat * call)) (s : pst) : pst := fold_left (fun s x => pci_step x.1 x.2 s) l s.
