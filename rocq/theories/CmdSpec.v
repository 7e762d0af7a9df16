(** What a kernel command line should mean (C64): settings of the form key=value, a later one overriding an earlier. *)
From Verif Require Import Base CmdModel.
Open Scope N_scope.

(** A value is written bare or between quotes. *)
Inductive cval := Bare (w : list N) | Quoted (w : list N).
Definition val_text (v : cval) : list N := match v with Bare w | Quoted w => w end.
Definition write_val (v : cval) : list N := match v with Bare w => w | Quoted w => [39] ++ w ++ [39] end.
(** A number given by its decimal digits. *)
Definition decimal (ds : list N) : N := foldl (fun a d => 10 * a + d) 0 ds.
Definition digits_text (ds : list N) : list N := map (fun d => 48 + d) ds.
Definition write_num (q : bool) (ds : list N) : list N :=
  if q then [39] ++ digits_text ds ++ [39] else digits_text ds.

Inductive csetting :=
| SLog (v : cval) | SInit (v : cval) | SInitArgs (v : cval) | SApp (v : cval) | STest (v : cval)
| SMode (m : cmode) | STransport (t : ctrans)
| SMid (quoted : bool) (ds : list N) | SWorkers (quoted : bool) (ds : list N).

Definition mode_name (m : cmode) : list N :=
  match m with Native => chars "native" | Controller => chars "controller" | Client => chars "client" end.
Definition trans_name (t : ctrans) : list N := match t with Shmem => chars "shmem" | Ethernet => chars "ethernet" end.
Definition write_setting (s : csetting) : list N :=
  match s with
  | SLog v => chars "log=" ++ write_val v
  | SInit v => chars "init=" ++ write_val v
  | SInitArgs v => chars "initargs=" ++ write_val v
  | SApp v => chars "appcmd=" ++ write_val v
  | STest v => chars "test=" ++ write_val v
  | SMode m => chars "mode=" ++ mode_name m
  | STransport t => chars "transport=" ++ trans_name t
  | SMid q ds => chars "mid=" ++ write_num q ds
  | SWorkers q ds => chars "workers=" ++ write_num q ds
  end.

(** The words that name a setting. *)
Definition reserved : list (list N) :=
  map chars ["test"; "log"; "mode"; "transport"; "mid"; "workers"; "init"; "initargs"; "appcmd"]%string.
(** A bare value: letters, digits, dots, underscores and dashes, not one of the names. *)
Definition word (w : list N) : Prop :=
  w <> [] /\ Forall (fun c => (97 <= c <= 122) \/ (65 <= c <= 90) \/ (48 <= c <= 57) \/ c = 46 \/ c = 95 \/ c = 45) w.
Definition val_ok (v : cval) : Prop :=
  match v with
  | Bare w => word w /\ w ∉ reserved
  | Quoted w => Forall (fun c => c <> 39 /\ c <> 92) w
  end.
Definition num_ok (max : N) (ds : list N) : Prop := ds <> [] /\ Forall (fun d => d < 10) ds /\ decimal ds <= max.
Definition setting_ok (s : csetting) : Prop :=
  match s with
  | SLog v | SInit v | SInitArgs v | SApp v | STest v => val_ok v
  | SMode _ | STransport _ => True
  | SMid _ ds => num_ok (2 ^ 64 - 1) ds
  | SWorkers _ ds => num_ok 255 ds
  end.

(** A line: the name of the kernel or none, then the settings, each after some spaces, and spaces at the end. *)
Definition spaces (n : nat) : list N := replicate n 32.
Definition write_name (name : option (list N)) : list N := match name with Some w => [46; 47] ++ w | None => [] end.
Definition name_ok (name : option (list N)) : Prop :=
  match name with Some w => w <> [] /\ Forall (fun c => (97 <= c <= 122) \/ (65 <= c <= 90)) w | None => True end.
Definition write_line (name : option (list N)) (ss : list (nat * csetting)) : list N :=
  write_name name ++ concat (map (fun x => spaces x.1 ++ write_setting x.2) ss).
Definition gaps_ok (name : option (list N)) (ss : list (nat * csetting)) : Prop :=
  match ss with
  | [] => True
  | x :: ss => (name = None \/ (1 <= x.1)%nat) /\ Forall (fun x => (1 <= x.1)%nat) ss
  end.
Definition line_ok (name : option (list N)) (ss : list (nat * csetting)) : Prop :=
  name_ok name /\ gaps_ok name ss /\ Forall (fun x => setting_ok x.2) ss.

(** The last value that a line gives. *)
Definition last_of {A} (d : A) (f : csetting -> option A) (ss : list csetting) : A := default d (last (omap f ss)).
Definition meaning (ss : list csetting) : cargs := mkCA
  (last_of (chars "info") (fun s => match s with SLog v => Some (val_text v) | _ => None end) ss)
  (last_of (chars "init") (fun s => match s with SInit v => Some (val_text v) | _ => None end) ss)
  (last_of [] (fun s => match s with SInitArgs v => Some (val_text v) | _ => None end) ss)
  (last_of [] (fun s => match s with SApp v => Some (val_text v) | _ => None end) ss)
  (last_of None (fun s => match s with STest v => Some (Some (val_text v)) | _ => None end) ss)
  (last_of Native (fun s => match s with SMode m => Some m | _ => None end) ss)
  (last_of Shmem (fun s => match s with STransport t => Some t | _ => None end) ss)
  (last_of 0 (fun s => match s with SMid _ ds => Some (decimal ds) | _ => None end) ss)
  (last_of 1 (fun s => match s with SWorkers _ ds => Some (decimal ds) | _ => None end) ss).
(** A kernel that works with others needs the support for its transport. *)
Definition supported (f_shmem f_eth : bool) (a : cargs) : Prop :=
  c_mode a = Native \/ match c_trans a with Shmem => f_shmem = true | Ethernet => f_eth = true end.

(** [w] stands in the line [s]. *)
Definition part_of (w s : list N) : Prop := exists p q, s = p ++ w ++ q.

(** Arguments separated by single spaces. *)
Fixpoint join_sp (l : list (list N)) : list N :=
  match l with [] => [] | [w] => w | w :: l => w ++ [32] ++ join_sp l end.
(** An argument: no space and no zero in it. *)
Definition arg_ok (w : list N) : Prop := Forall (fun c => c <> 32 /\ c <> 0) w.
