(** Specification vocabulary for memory at boot. *)
From Verif Require Import Base MemModel MemSpec BootModel.
Open Scope N_scope.

(** The memory the firmware offers: CONVENTIONAL regions that start at or above
    1 MiB, as frames. *)
Definition usable (rs : list region) : list frame :=
  flat_map (fun r => if rg_conv r then
    if decide (1048576 <= rg_start r) then [mkFrame (rg_start r) (rg_pages r * 4096) 0] else []
    else []) rs.

(** The non-hot-plug ranges of the topology, labelled with their node. *)
Definition topo_frames (topo : list node) : list frame :=
  flat_map (fun nd => flat_map (fun r => match r with
    | (lo, hi, hot) => if (hot : bool) then [] else [mkFrame lo (hi - lo) (nd_id nd)]
    end) (nd_mem nd)) topo.
(** Address [a] is on node [n]; without topology information everything counts as
    node 0. *)
Definition on_node (topo : list node) (n a : N) : Prop :=
  match topo with
  | [] => n = 0
  | _ => exists f, f ∈ topo_frames topo /\ f_aff f = n /\ covers f a
  end.

(** All memory owned by some allocator after boot. *)
Definition node_frames (gm : gmem) : list frame :=
  concat (map frames (gm_emem gm)) ++ gm_self gm ++ concat (map frames (gm_caches gm)).
Definition all_frames (early : mcache) (gm : gmem) : list frame :=
  frames early ++ node_frames gm.

(** Bytes of a list of frames of node [n]. *)
Definition node_bytes (n : N) (l : list frame) : N :=
  total_size (filter (fun f => f_aff f = n) l).
