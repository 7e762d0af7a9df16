(** Model of what the library OS asks its host for besides files and threads:
    random bytes, the time, and parameters.

    Modelled code:
      lib/vibrio/src/rumprt/mod.rs:55-56    the clocks
      lib/vibrio/src/rumprt/mod.rs:200-224  rumpuser_getrandom
      lib/vibrio/src/rumprt/mod.rs:253-276  rumpuser_clock_gettime
      lib/vibrio/src/rumprt/mod.rs:278-307  rumpuser_getparam
      lib/vibrio/src/rumprt/errno.rs:14     ENOENT

    The environment: the random number instruction of the processor, the time
    since the machine was started (a duration in nanoseconds, lib/rawtime is not
    part of the repository), the second at which it was started, the text of
    the program's command line.  Memory of the caller is the list of its bytes. *)
From Verif Require Import Base.

(** ** Random bytes *)

(** What _rdrand16_step gives at its k-th use: 16 bits, or [None] for failure. *)
Definition rdrand := nat → option N.

(** mod.rs:210-219: the loop over the buffer: the bytes of the buffer from
    index [i] on; returns the new bytes and the index of a failure. *)
Fixpoint fill (rd : rdrand) (i : nat) (buf : list N) : list N * option nat :=
  match buf with
  | [] => ([], None)
  | b :: buf' =>
      match rd i with
      | Some rnd =>
          let '(out, r) := fill rd (S i) buf' in ((rnd mod 256)%N :: out, r)
      | None => (b :: buf', Some i)
      end
  end.

(** mod.rs:202-224: rumpuser_getrandom: the result, *retp and the buffer. *)
Definition getrandom (rd : rdrand) (buf : list N) : Z * nat * list N :=
  match fill rd 0 buf with
  | (out, None) => (0%Z, length buf, out)
  | (out, Some i) => (1%Z, i - 1, out)
  end.

(** ** The time *)

(** mod.rs:55-56. *)
Definition CLOCK_RELWALL : N := 0.
Definition CLOCK_ABSMONO : N := 1.

(** Duration::as_secs and Duration::subsec_nanos. *)
Definition as_secs (t : N) : N := t / 1000000000.
Definition subsec_nanos (t : N) : N := t mod 1000000000.

(** A word as i64. *)
Definition as_i64 (n : N) : Z :=
  let m := (Z.of_N n mod 2 ^ 64)%Z in if (m <? 2 ^ 63)%Z then m else (m - 2 ^ 64)%Z.

(** mod.rs:255-276: rumpuser_clock_gettime at [t] nanoseconds after the start
    of the machine at second [anchor]; [None] is the result 1, with nothing
    stored.  The addition panics when it overflows; the second is at most 2^62
    for any date. *)
Definition clock_gettime (anchor t clock : N) : option (Z * N) :=
  if (clock =? CLOCK_ABSMONO)%N then Some (as_i64 (as_secs t), subsec_nanos t)
  else if (clock =? CLOCK_RELWALL)%N then Some (as_i64 (anchor + as_secs t), subsec_nanos t)
  else None.

(** ** Parameters *)

(** Text as bytes. *)
Definition n_ncpu : list N := [95; 82; 85; 77; 80; 85; 83; 69; 82; 95; 78; 67; 80; 85]%N.
Definition n_verbose : list N := [82; 85; 77; 80; 95; 86; 69; 82; 66; 79; 83; 69]%N.
Definition n_threads : list N := [82; 85; 77; 80; 95; 84; 72; 82; 69; 65; 68; 83]%N.
Definition n_hostname : list N :=
  [95; 82; 85; 77; 80; 85; 83; 69; 82; 95; 72; 79; 83; 84; 78; 65; 77; 69]%N.
Definition n_memlimit : list N := [82; 85; 77; 80; 95; 77; 69; 77; 76; 73; 77; 73; 84]%N.

(** errno.rs:14. *)
Definition ENOENT : Z := 2.

(** A digit of a number in decimal. *)
Definition digit (b : N) : option N := if ((48 <=? b) && (b <=? 57))%N then Some (b - 48)%N else None.

(** usize::from_str (core::num), digits only: an error on overflow. *)
Fixpoint parse_digits (acc : N) (s : list N) : option N :=
  match s with
  | [] => Some acc
  | b :: s' =>
      match digit b with
      | None => None
      | Some d =>
          let acc' := (acc * 10 + d)%N in
          if (acc' <? 2 ^ 64)%N then parse_digits acc' s' else None
      end
  end.

(** usize::from_str: a plus sign may come first, then at least one digit. *)
Definition parse (s : list N) : option N :=
  match s with
  | [] => None
  | b :: s' =>
      if (b =? 43)%N
      then match s' with [] => None | _ => parse_digits 0 s' end
      else parse_digits 0 s
  end.

(** A number as decimal text (format!); [fuel] is at least its number of digits. *)
Fixpoint show_aux (fuel : nat) (n : N) (acc : list N) : list N :=
  match fuel with
  | 0 => acc
  | S k =>
      let acc' := (48 + n mod 10)%N :: acc in
      if (n <? 10)%N then acc' else show_aux k (n / 10) acc'
  end.
Definition show (n : N) : list N := show_aux (S (N.to_nat (N.log2 n))) n [].

(** mod.rs:288-302: the text of a parameter, without the final zero. *)
Definition param (cmdline name : list N) : option (list N) :=
  if bool_decide (name = n_ncpu) then Some (show (default 1%N (parse cmdline)))
  else if bool_decide (name = n_verbose) then Some [49]%N
  else if bool_decide (name = n_threads) then Some [49]%N
  else if bool_decide (name = n_hostname) then Some [98; 116; 101; 115; 116]%N
  else if bool_decide (name = n_memlimit)
  then Some [53; 52; 57; 55; 53; 53; 56; 49; 51; 56; 56; 56]%N
  else None.

(** mod.rs:280-307: rumpuser_getparam: the result and the buffer; [None] is the
    panic of the assertion at line 304. *)
Definition getparam (cmdline name buf : list N) : option (Z * list N) :=
  match param cmdline name with
  | None => Some (ENOENT, buf)
  | Some t =>
      let t0 := t ++ [0%N] in
      if length t0 <=? length buf then Some (0%Z, t0 ++ drop (length t0) buf) else None
  end.
