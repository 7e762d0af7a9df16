(** Model of the user-level thread scheduler, lib/lineup/src/scheduler.rs (SmpScheduler).
    Cores are identified by their index (core_id_to_index, lib.rs:29-43, is C33); thread ids
    are numbers; times are numbers.  Each yield request of a thread, each pass of one of the
    loops of [run] (an interrupt, a wake-up, a dispatch) and each spawn from outside is one
    step; the steps of different cores interleave arbitrarily.
    Simplifications: the locks inside a step are not modelled (the code notes one race, a
    wake-up request against an expiring timeout, scheduler.rs:278-282); stacks, thread-local
    storage and upcalls are left out; [Instant::now()] is a parameter of the step. *)
From Verif Require Import Base.
From stdpp Require Import functions.

(** MAX_THREADS, scheduler.rs:88, and MAX_CORES, lib/kpi/src/process.rs:15. *)
Definition MAX_THREADS : nat := 2048.
Definition SCH_CORES : nat := 96.

(** Thread, threads.rs:29-50: affinity (as an index) and joinlist. *)
Record thr := mkThr { t_aff : nat; t_join : list (nat * nat) }.

(** YieldRequest, threads.rs:128-160 (SpawnWithArgs differs from Spawn only in what is not
    modelled), and the end of the thread's function. *)
Inductive yreq :=
| YExit
| YNone
| YTimeout (until : N)
| YRunnable (t : nat)
| YUnrunnable (t : nat)
| YRunnableList (ts : list nat)
| YJoinOn (t : nat)
| YSpawn (aff : nat) (irq : option N).

(** YieldResume, threads.rs:162-173. *)
Inductive yres := RCompleted | RInterrupted | RSpawned (t : nat) | RDoNotResume.

(** What happened: a thread was created, made runnable on a core, dispatched on a core,
    ended. *)
Inductive schev := VSpawn (t : nat) | VReady (c t : nat) | VDisp (c t : nat) | VExit (t : nat).

(** SmpScheduler, scheduler.rs:58-76: threads, generators, runnable and waiting per core,
    tid_counter, irqvec_to_tid; the thread that runs on each core; and the events. *)
Record sch := mkSch { h_thr : gmap nat thr; h_gen : gset nat;
                      h_run : nat -> list nat; h_wait : nat -> list (N * nat);
                      h_next : nat; h_irq : gmap N nat;
                      h_cur : nat -> option nat; h_tr : list schev }.

(** with_upcalls, scheduler.rs:90-101. *)
Definition sch_init : sch := mkSch ∅ ∅ (fun _ => []) (fun _ => []) 0 ∅ (fun _ => None) [].

(** mark_runnable, scheduler.rs:193-195; an index out of bounds panics. *)
Definition mark_runnable (s : sch) (t c : nat) : res sch :=
  let 'mkSch th ge ru wa nx ir cu tr := s in
  if decide (c < SCH_CORES)
  then Ok (mkSch th ge (<[c := ru c ++ [t]]> ru) wa nx ir cu (tr ++ [VReady c t]))
  else Panic.

(** mark_unrunnable, scheduler.rs:202-205. *)
Definition mark_unrunnable (s : sch) (t c : nat) : res sch :=
  let 'mkSch th ge ru wa nx ir cu tr := s in
  if decide (c < SCH_CORES)
  then Ok (mkSch th ge (<[c := filter (fun x => x <> t) (ru c)]> ru) wa nx ir cu tr)
  else Panic.

(** waitlist_remove, scheduler.rs:216-219. *)
Definition waitlist_remove (s : sch) (t c : nat) : res sch :=
  let 'mkSch th ge ru wa nx ir cu tr := s in
  if decide (c < SCH_CORES)
  then Ok (mkSch th ge ru (<[c := filter (fun e => e.2 <> t) (wa c)]> wa) nx ir cu tr)
  else Panic.

(** The order of the wait list: (Instant, ThreadId) lexicographically. *)
Definition wcmp (a b : N * nat) : comparison :=
  match (a.1 ?= b.1)%N with Eq => (a.2 ?= b.2) | o => o end.

(** waitlist_insert, scheduler.rs:222-230: the list is sorted in descending order;
    binary_search_by with the reversed order finds the element or its place.  (The search is
    modelled as a scan, which gives the same result on a sorted list.) *)
Fixpoint wl_insert (x : N * nat) (l : list (N * nat)) : option (list (N * nat)) :=
  match l with
  | [] => Some [x]
  | y :: l' =>
      match wcmp y x with
      | Eq => None
      | Gt => option_map (cons y) (wl_insert x l')
      | Lt => Some (x :: y :: l')
      end
  end.
Definition waitlist_insert (s : sch) (t c : nat) (until : N) : res sch :=
  let 'mkSch th ge ru wa nx ir cu tr := s in
  if decide (c < SCH_CORES)
  then match wl_insert (until, t) (wa c) with
       | Some l => Ok (mkSch th ge ru (<[c := l]> wa) nx ir cu tr)
       | None => Panic                                   (* "Thread already in waitlist?" *)
       end
  else Panic.

Definition sbind {A B} (r : res A) (f : A -> res B) : res B :=
  match r with Ok a => f a | Err e => Err e | Panic => Panic end.
Notation "'do' x <- r ; k" := (sbind r (fun x => k)) (at level 200, x name, r at level 100, k at level 200).

(** spawn and spawn_with_args, scheduler.rs:115-167, with add_thread, 169-189. *)
Definition sch_spawn (s : sch) (aff : nat) (irq : option N) : res (sch * option nat) :=
  let 'mkSch th ge ru wa nx ir cu tr := s in
  let t := nx in
  match th !! t with
  | Some _ => Panic                                       (* "Thread already exists?" *)
  | None =>
      if decide (size th <= MAX_THREADS) then
        do s <- mark_runnable (mkSch (<[t := mkThr aff []]> th) ({[t]} ∪ ge) ru wa (S nx) ir cu (tr ++ [VSpawn t])) t aff;
        let 'mkSch th ge ru wa nx ir cu tr := s in
        Ok (mkSch th ge ru wa nx (match irq with Some v => <[v := t]> ir | None => ir end) cu tr, Some t)
      else Ok (mkSch th ge ru wa (S nx) ir cu tr, None)
  end.

(** The loop over the joinlist, scheduler.rs:249-256. *)
Fixpoint wake_joiners (s : sch) (l : list (nat * nat)) : res sch :=
  match l with
  | [] => Ok s
  | (t, c) :: l => do s <- mark_runnable s t c; wake_joiners s l
  end.

(** Runnable, scheduler.rs:268-285, and each element of RunnableList, 304-318. *)
Definition wake_thread (s : sch) (r : nat) : res sch :=
  match h_thr s !! r with
  | None => Panic                                         (* "Can't find thread" *)
  | Some x => do s <- waitlist_remove s r (t_aff x); mark_runnable s r (t_aff x)
  end.
Fixpoint wake_threads (s : sch) (l : list nat) : res sch :=
  match l with
  | [] => Ok s
  | r :: l => do s <- wake_thread s r; wake_threads s l
  end.

(** handle_yield_request, scheduler.rs:235-393. *)
Definition handle_yield (s : sch) (t : nat) (r : yreq) : res (sch * yres) :=
  match h_thr s !! t with
  | None => Panic                                         (* :236, unwrap *)
  | Some x =>
      let c := t_aff x in
      match r with
      | YExit =>
          do s <- mark_unrunnable s t c;
          let 'mkSch th ge ru wa nx ir cu tr := s in
          do s <- wake_joiners (mkSch (delete t th) ge ru wa nx ir cu (tr ++ [VExit t])) (t_join x);
          Ok (s, RDoNotResume)
      | YNone => do s <- mark_runnable s t c; Ok (s, RInterrupted)
      | YRunnable r => do s <- wake_thread s r; Ok (s, RCompleted)
      | YUnrunnable r =>
          match h_thr s !! r with
          | None => Panic
          | Some y =>
              if decide (r = t) then Ok (s, RInterrupted)
              else do s <- mark_unrunnable s r (t_aff y); Ok (s, RCompleted)
          end
      | YRunnableList rs => do s <- wake_threads s rs; Ok (s, RCompleted)
      | YTimeout until => do s <- waitlist_insert s t c until; Ok (s, RInterrupted)
      | YJoinOn w =>
          match h_thr s !! w with
          | Some y =>
              let 'mkSch th ge ru wa nx ir cu tr := s in
              Ok (mkSch (<[w := mkThr (t_aff y) (t_join y ++ [(t, c)])]> th) ge ru wa nx ir cu tr, RInterrupted)
          | None => Ok (s, RCompleted)
          end
      | YSpawn aff irq =>
          do p <- sch_spawn s aff irq;
          match p.2 with
          | Some t' => Ok (p.1, RSpawned t')
          | None => Panic                                 (* "Can't spawn the thread" *)
          end
      end
  end.

(** What can happen: a spawn from outside; an interrupt is handled on a core; a core looks
    at its wait list once at time [now]; a core dispatches; the thread running on a core
    issues a request. *)
Inductive schact :=
| HSpawn (aff : nat) (irq : option N)
| HIrq (c : nat) (v : N)
| HWake (c : nat) (now : N)
| HDispatch (c : nat)
| HYield (c : nat) (r : yreq).

Definition set_cur (s : sch) (c : nat) (o : option nat) : sch :=
  let 'mkSch th ge ru wa nx ir cu tr := s in mkSch th ge ru wa nx ir (<[c := o]> cu) tr.
Definition put_gen (s : sch) (t : nat) : sch :=
  let 'mkSch th ge ru wa nx ir cu tr := s in mkSch th ({[t]} ∪ ge) ru wa nx ir cu tr.

Definition sch_step (s : sch) (a : schact) : res sch :=
  match a with
  | HSpawn aff irq => do p <- sch_spawn s aff irq; Ok p.1
  (* check_interrupt, scheduler.rs:410-420, one pass *)
  | HIrq c v =>
      match h_cur s c, h_irq s !! v with
      | None, Some t => mark_runnable s t c
      | _, _ => Ok s
      end
  (* check_wakeups, scheduler.rs:400-407, one pass *)
  | HWake c now =>
      match h_cur s c, reverse (h_wait s c) with
      | None, (w, t) :: rest =>
          if decide (w <= now)%N then
            let 'mkSch th ge ru wa nx ir cu tr := s in
            mark_runnable (mkSch th ge ru (<[c := reverse rest]> wa) nx ir cu tr) t c
          else Ok s
      | _, _ => Ok s
      end
  (* run, scheduler.rs:451-476 *)
  | HDispatch c =>
      match h_cur s c, h_run s c with
      | None, t :: rest =>
          let 'mkSch th ge ru wa nx ir cu tr := s in
          if decide (t ∈ ge) then
            match th !! t with
            | Some _ => Ok (mkSch th (ge ∖ {[t]}) (<[c := rest]> ru) wa nx ir (<[c := Some t]> cu) (tr ++ [VDisp c t]))
            | None => Panic                               (* "Can't find thread state?" *)
            end
          else Panic                                      (* "Can't find generator thread state?" *)
      | _, _ => Ok s
      end
  (* run, scheduler.rs:480-508 *)
  | HYield c r =>
      match h_cur s c with
      | None => Ok s
      | Some t =>
          do p <- handle_yield s t r;
          match p.2 with
          | RInterrupted =>
              match h_thr p.1 !! t with
              | Some _ => Ok (set_cur (put_gen p.1 t) c None)
              | None => Panic
              end
          | RDoNotResume => Ok (set_cur p.1 c None)
          | _ => Ok p.1
          end
      end
  end.

Fixpoint sch_run (s : sch) (l : list schact) : res sch :=
  match l with
  | [] => Ok s
  | a :: l => do s <- sch_step s a; sch_run s l
  end.
