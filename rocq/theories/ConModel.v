(** Model of printing on the console: the system call Log on a machine of its own and on a client of a rack, the line buffer of
    a core (kernel/src/arch/x86_64/serial.rs), the remote call that copies it to the controller
    (rackscale/processops/print.rs) and the calls of the user library that print (lib/kpi/src/syscalls/process.rs,
    lib/vibrio/src/writer.rs, lib/vibrio/src/rumprt/mod.rs).  Text is a list of bytes.  Not modelled: the memory of the text
    is mapped and readable, memory for the copy of the text does not run out, the serial port takes every byte, and the remote
    call delivers its message (C29, C55). *)
From Verif Require Import Base.
From Verif Require SysModel RkModel.
Local Open Scope N_scope.

Definition NL : N := 10.
Definition CR : N := 13.

(** buffer.find("\n") and split_at(idx + 1), serial.rs:53-54: the text up to the first newline, and the rest. *)
Fixpoint cut (t : list N) : option (list N * list N) :=
  match t with
  | [] => None
  | b :: t => if b =? NL then Some ([b], t)
              else match cut t with Some (l, h) => Some (b :: l, h) | None => None end
  end.

(** Where a core is in the call: it does not print; waits for SERIAL_LINE_MUTEX (serial.rs:55, :70, :104, :121) with what it
    will write after the contents of its buffer and what follows; writes the first part (:56, :71), [high] is what follows the
    newline; writes what follows the newline because it does not fit into the buffer (:64); calls the controller
    (print.rs:36-40).  [ret] is the variable of serial.rs:96. *)
Inductive phase :=
| PIdle
| PWait (low : list N) (high : option (list N))
| PLow (out : list N) (high : option (list N)) (ret : list N)
| PHigh (out : list N) (ret : list N)
| PRpc (ret : list N).

(** PRINT_BUFFER, serial.rs:21, and the phase. *)
Record core := mkCore { k_buf : list N; k_ph : phase }.

(** The machine: whether it is a client of a rack, the capacity of the buffers (0 before serial::init and at least 128
    afterwards, serial.rs:24-28), the cores, the holder of the mutex, the bytes on the serial line with the core whose program
    printed them (None: the kernel itself), the messages that arrived at the controller with the core they come from (the
    lines "RemoteLog(mid) text", print.rs:70), and whether the machine was shut down. *)
Record st := mkSt { s_client : bool; s_cap : N; s_cores : list core; s_lock : option nat;
                    s_line : list (option nat * N); s_remote : list (nat * list N); s_off : bool }.
Definition core0 : core := mkCore [] PIdle.
Definition init (client : bool) (cap : N) (n : nat) : st := mkSt client cap (replicate n core0) None [] [] false.

(** The arguments: UserSlice::for_current_proc (kernel/src/syscalls.rs:140-143), then from_utf8 (syscall.rs:122-128: a warning
    of the kernel, and the call succeeds) or the conversion into a String (rackscale/syscalls.rs:286-288: the call fails).
    [Ok true]: the text is printed. *)
Definition accept (client : bool) (base : N) (text : list N) : res bool :=
  match SysModel.us_for_current true (Ok 0) base (N.of_nat (length text)) with
  | Ok _ => if RkModel.utf8 text then Ok true else if client then Err NotAValidUtf8String else Ok false
  | Err e => Err e
  | Panic => Panic
  end.

(** buffered_print, serial.rs:48-88 and buffered_print_and_return, :96-140, up to the mutex.  (The arm for a buffer that is in
    use, :82-85, :128-131: the only callers are the two system calls, which run with interrupts off and do not call each other,
    so it is not reached.) *)
Definition begin (cap : N) (k : core) (text : list N) : core :=
  match cut text with
  | Some (low, high) => mkCore (k_buf k) (PWait low (Some high))
  | None =>
      if cap - N.of_nat (length (k_buf k)) <? N.of_nat (length text)
      then mkCore (k_buf k) (PWait text None)
      else mkCore (k_buf k ++ text) PIdle
  end.

(** The end of the call: print.rs:26, :53-55. *)
Definition finish (client : bool) (ret : list N) : phase :=
  if client then match ret with [] => PIdle | _ => PRpc ret end else PIdle.

(** Events: a program on core [c] calls print with a text at [base]; core [c] takes a step in the kernel; the kernel writes
    something of its own (klogger; taken to respect no mutex); the program ends the machine: exit,
    kernel/src/arch/x86_64/syscall.rs:295-305, debug.rs:99-116. *)
Inductive ev :=
| EPrint (c : nat) (base : N) (text : list N)
| EStep (c : nat)
| EKern (text : list N)
| EExit.

Definition upd (s : st) (c : nat) (k : core) (lock : option nat) (out : list N) : st :=
  mkSt (s_client s) (s_cap s) (<[c := k]> (s_cores s)) lock (s_line s ++ map (pair (Some c)) out) (s_remote s) (s_off s).

(** serial.rs:55-66, :70-72 and :104-116, :120-123; print.rs:26-57. *)
Definition core_step (s : st) (c : nat) (k : core) : option st :=
  match k_ph k with
  | PIdle => None
  | PWait low high =>
      match s_lock s with
      | None => Some (upd s c (mkCore (k_buf k) (PLow (k_buf k ++ low) high (k_buf k ++ low))) (Some c) [])
      | Some _ => None
      end
  | PLow (b :: out) high ret => Some (upd s c (mkCore (k_buf k) (PLow out high ret)) (s_lock s) [b])
  | PLow [] None ret => Some (upd s c (mkCore [] (finish (s_client s) ret)) None [])
  | PLow [] (Some high) ret =>
      if N.of_nat (length high) <=? s_cap s - 0
      then Some (upd s c (mkCore high (finish (s_client s) ret)) None [])
      else Some (upd s c (mkCore [] (PHigh high high)) (s_lock s) [])
  | PHigh (b :: out) ret => Some (upd s c (mkCore (k_buf k) (PHigh out ret)) (s_lock s) [b])
  | PHigh [] ret => Some (upd s c (mkCore (k_buf k) (finish (s_client s) ret)) None [])
  | PRpc ret =>
      let s' := upd s c (mkCore (k_buf k) PIdle) (s_lock s) [] in
      Some (mkSt (s_client s') (s_cap s') (s_cores s') (s_lock s') (s_line s') (s_remote s' ++ [(c, ret)]) (s_off s'))
  end.

Definition step (s : st) (e : ev) : option st :=
  if s_off s then None else
  match e with
  | EPrint c base text =>
      match s_cores s !! c with
      | Some k =>
          match k_ph k with
          | PIdle =>
              match accept (s_client s) base text with
              | Ok true => Some (upd s c (begin (s_cap s) k text) (s_lock s) [])
              | _ => Some s
              end
          | _ => None
          end
      | None => None
      end
  | EStep c => match s_cores s !! c with Some k => core_step s c k | None => None end
  | EKern text =>
      Some (mkSt (s_client s) (s_cap s) (s_cores s) (s_lock s) (s_line s ++ map (pair None) text) (s_remote s) (s_off s))
  | EExit => Some (mkSt (s_client s) (s_cap s) (s_cores s) (s_lock s) (s_line s) (s_remote s) true)
  end.

Fixpoint run (s : st) (l : list ev) : option st :=
  match l with
  | [] => Some s
  | e :: l => match step s e with Some s' => run s' l | None => None end
  end.

(** lib/vibrio/src/writer.rs:55-60 and rumprt/mod.rs:232-235: a call that fails stops the program (expect). *)
Definition write_str (client : bool) (base : N) (text : list N) : res unit :=
  match accept client base text with Ok _ => Ok tt | _ => Panic end.

(** rumpuser_putchar, lib/vibrio/src/rumprt/mod.rs:227-236: the texts it prints. [ch] is an i64; [ch as u8 as char] is the
    character with the number of the low byte, in UTF-8. *)
Definition encode_utf8 (c : N) : list N := if c <? 128 then [c] else [192 + c / 64; 128 + c mod 64].
Definition putchar (ch : Z) : list (list N) :=
  (if (ch =? 10)%Z then [encode_utf8 CR] else []) ++ [encode_utf8 (Z.to_N (ch mod 256))].
