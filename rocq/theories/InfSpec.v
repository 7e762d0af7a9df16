(** Vocabulary for what a program learns about itself and the machine (C65). *)
From Verif Require Import Base SysModel InfModel.
Open Scope N_scope.

(** The numbers are 64-bit words. *)
Definition pinfo_ok (p : pinfo) : Prop :=
  pi_pid p < 2 ^ 64 /\ pi_tls_data p < 2 ^ 64 /\ pi_tls_data_len p < 2 ^ 64 /\ pi_tls_len_total p < 2 ^ 64 /\
  pi_align p < 2 ^ 64.
Definition hw_ok (w : hw) : Prop :=
  w_id w < 2 ^ 32 /\ match w_node w with Some n => n < 2 ^ 64 | None => True end /\ w_package w < 2 ^ 64 /\
  w_core w < 2 ^ 64 /\ w_thread w < 2 ^ 64.
(** The machines of a rack, with their threads. *)
Definition rack_ok (l : list (N * list hw)) : Prop :=
  NoDup (map fst l) /\
  Forall (fun x => 1 <= x.1 <= 16 /\ (length x.2 <= 192)%nat /\ NoDup (map w_id x.2) /\ Forall hw_ok x.2) l.
Definition rack_total (l : list (N * list hw)) : nat := length (concat (map snd l)).
(** The thread [c] is thread [w] of machine [mid]. *)
Definition describes (mid : N) (w : hw) (c : cpu) : Prop :=
  mtid_from_gtid (h_id c) = w_id w /\ mid_from_gtid (h_id c) = mid /\
  h_node c = match w_node w with Some n => n | None => 0 end /\
  h_package c = w_package w /\ h_core c = w_core w /\ h_thread c = w_thread w.
(** The machine of each thread of a rack. *)
Definition rack_list (l : list (N * list hw)) : list (N * hw) := concat (map (fun x => map (fun w => (x.1, w)) x.2) l).
