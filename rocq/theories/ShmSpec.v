(** Vocabulary for the division of shared memory (C61). *)
From Verif Require Import Base ShmModel.

Definition in_block (b : N * N) (x : N) : Prop := (fst b <= x < fst b + snd b)%N.
Definition in_dev (d : sdev) (x : N) : Prop := (sd_base d <= x < sd_base d + sd_size d)%N.
(** Machine [mid]'s device, minus, for the machines other than 0 in a rack connected by shared memory, its
    first 2 MiB: the memory that is allocated with the affinity of machine [mid]. *)
Definition mem_of (s : shm) (mid : nat) (x : N) : Prop :=
  exists d, sh_devs s !! mid = Some d /\ in_dev d x /\
    (sh_shmem s = true -> mid <> 0 -> (sd_base d + 2097152 <= x)%N).
(** The first address after machine [mid]'s device. *)
Definition ends_at (s : shm) (mid : nat) (x : N) : Prop :=
  exists d, sh_devs s !! mid = Some d /\ x = (sd_base d + sd_size d)%N.
(** Devices as the machines find them: they do not overlap, lie below the kernel's part of the address space,
    and there is one, of at least 2 MiB, for every machine. *)
Record shm_ok (s : shm) : Prop := {
  so_apart : forall i j d d' x, sh_devs s !! i = Some d -> sh_devs s !! j = Some d' ->
    in_dev d x -> in_dev d' x -> i = j;
  so_low : Forall (fun d => (2097152 <= sd_size d)%N /\ (sd_base d + sd_size d < 2 ^ 46)%N) (sh_devs s);
  so_num : sh_machines s <= length (sh_devs s) }.
Definition machine (s : shm) (mid : nat) : Prop := mid < sh_machines s.
