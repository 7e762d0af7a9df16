(** Model of the kernel command line: the lexer and parser of kernel/src/cmdline.rs, and what the C runtime makes of
    the arguments meant for the application, lib/vibrio/src/rumprt/crt/mod.rs:296-312.
    A line is the list of its Unicode code points.  Simplifications: the lexer that the logos crate generates from the
    regular expressions of CmdToken is modelled by its contract, the longest match, fixed strings winning over
    patterns of the same length, and no empty token; the address translation of the line (:150-157) is left out, and
    so is everything printed. *)
From Verif Require Import Base.
From Coq Require Strings.Ascii.
Open Scope N_scope.

(** The code points of a literal of the source. *)
Fixpoint chars (s : string) : list N :=
  match s with String.EmptyString => [] | String.String a s => Ascii.N_of_ascii a :: chars s end.
Definition str_eqb (a b : list N) : bool := bool_decide (a = b).

Definition SPACE : N := 32.
Definition QUOTE : N := 39.
Definition BSLASH : N := 92.
Definition SLASH : N := 47.
Definition NEWLINE : N := 10.
Definition EQUALS : N := 61.
Definition in_range (lo hi c : N) : bool := (lo <=? c) && (c <=? hi).
(** [a-zA-Z] *)
Definition is_letter (c : N) : bool := in_range 97 122 c || in_range 65 90 c.
(** [0-9] *)
Definition is_digit (c : N) : bool := in_range 48 57 c.
(** [a-zA-Z0-9\._-], cmdline.rs:56. *)
Definition is_word (c : N) : bool := is_letter c || is_digit c || (c =? 46) || (c =? 95) || (c =? 45).

(** The length of the longest prefix of characters satisfying [p]. *)
Fixpoint span (p : N -> bool) (s : list N) : nat :=
  match s with [] => O | c :: s => if p c then S (span p s) else O end.

(** CmdToken, cmdline.rs:19-71; [TSkip] is the run of spaces that is skipped, :68-69. *)
Inductive ctok := TKernel | TTest | TLog | TMode | TTransport | TMid | TWorkers | TInit | TInitArgs | TApp
                | TIdent | TSep | TLit | TError | TSkip.
Global Instance ctok_eq_dec : EqDecision ctok. Proof. solve_decision. Defined.
(** The fixed strings, :26-53. *)
Definition keywords : list (list N * ctok) :=
  [ (chars "test", TTest); (chars "log", TLog); (chars "mode", TMode); (chars "transport", TTransport);
    (chars "mid", TMid); (chars "workers", TWorkers); (chars "init", TInit); (chars "initargs", TInitArgs);
    (chars "appcmd", TApp) ].
Fixpoint find_kw (l : list (list N * ctok)) (w : list N) : ctok :=
  match l with [] => TIdent | (k, t) :: l => if str_eqb k w then t else find_kw l w end.
Definition word_tok (w : list N) : ctok := find_kw keywords w.

(** The regular expression of KernelBinary, :21-22: any character but a newline, a slash, letters.  0: no match. *)
Definition len_kernel (s : list N) : nat :=
  match s with
  | c :: d :: s' =>
      if negb (c =? NEWLINE) && (d =? SLASH) then match span is_letter s' with O => O | n => S (S n) end else O
  | _ => O
  end.
(** What follows the opening quote of LiteralString, :63-64, up to the closing quote. *)
Fixpoint len_body (s : list N) : option nat :=
  match s with
  | [] => None
  | c :: s' =>
      if c =? QUOTE then Some 1%nat
      else if c =? BSLASH then
        match s' with
        | e :: s'' =>
            if (e =? 116) || (e =? 117) || (e =? 110) || (e =? QUOTE) then fmap (fun n => S (S n)) (len_body s'')
            else None
        | [] => None
        end
      else fmap S (len_body s')
  end.
Definition len_lit (s : list N) : nat :=
  match s with c :: s' => if c =? QUOTE then match len_body s' with Some n => S n | None => O end else O | [] => O end.
(** The token at the front of a line that is not empty. *)
Definition lex_other (s : list N) : ctok * nat :=
  match s with
  | [] => (TError, 1%nat)
  | c :: _ =>
      if is_word c then let n := span is_word s in (word_tok (take n s), n)
      else if c =? EQUALS then (TSep, 1%nat)
      else if c =? SPACE then (TSkip, span (N.eqb SPACE) s)
      else match len_lit s with O => (TError, 1%nat) | n => (TLit, n) end
  end.
Definition lex1 (s : list N) : ctok * nat :=
  let '(t, n) := lex_other s in
  if Nat.ltb n (len_kernel s) then (TKernel, len_kernel s) else (t, n).
(** All tokens with their text; the [fuel] bounds their number. *)
Fixpoint lex (fuel : nat) (s : list N) : list (ctok * list N) :=
  match fuel, s with
  | O, _ | _, [] => []
  | S fuel, _ =>
      let '(t, n) := lex1 s in
      let rest := lex fuel (drop n s) in
      match t with TSkip => rest | _ => (t, take n s) :: rest end
  end.

Inductive cmode := Native | Controller | Client.
Inductive ctrans := Shmem | Ethernet.
Global Instance cmode_eq_dec : EqDecision cmode. Proof. solve_decision. Defined.
Global Instance ctrans_eq_dec : EqDecision ctrans. Proof. solve_decision. Defined.
(** Mode::from and Transport::from, :84-93, :104-112. *)
Definition mode_of (s : list N) : cmode :=
  if str_eqb s (chars "native") then Native
  else if str_eqb s (chars "controller") then Controller
  else if str_eqb s (chars "client") then Client else Native.
Definition trans_of (s : list N) : ctrans :=
  if str_eqb s (chars "ethernet") then Ethernet
  else if str_eqb s (chars "shmem") then Shmem else Shmem.

(** CommandLineArguments, :116-127, and its default, :131-145. *)
Record cargs := mkCA {
  c_log : list N; c_init : list N; c_initargs : list N; c_app : list N; c_test : option (list N);
  c_mode : cmode; c_trans : ctrans; c_mid : N; c_workers : N }.
Global Instance cargs_eq_dec : EqDecision cargs. Proof. solve_decision. Defined.
Definition ca_default : cargs := mkCA (chars "info") (chars "init") [] [] None Native Shmem 0 1.

(** str::parse of an unsigned integer of at most [max] (core::num): an optional plus sign, then digits, not none. *)
Fixpoint parse_digits (max acc : N) (s : list N) : option N :=
  match s with
  | [] => Some acc
  | c :: s =>
      if is_digit c then
        let acc := 10 * acc + (c - 48) in if acc <=? max then parse_digits max acc s else None
      else None
  end.
Definition parse_num (max : N) (s : list N) : option N :=
  match s with
  | [] => None
  | c :: s' => if c =? 43 then match s' with [] => None | _ => parse_digits max 0 s' end else parse_digits max 0 s
  end.
Definition USIZE_MAX : N := 2 ^ 64 - 1.
Definition U8_MAX : N := 255.

(** The value of a key that has been read, :181-217 for a bare word and :247-284 for one in quotes; [None]: no
    key expects it. *)
Definition set_mid (a : cargs) (v : list N) : cargs :=
  mkCA (c_log a) (c_init a) (c_initargs a) (c_app a) (c_test a) (c_mode a) (c_trans a)
       (default 0 (parse_num USIZE_MAX v)) (c_workers a).
Definition set_workers (a : cargs) (v : list N) : cargs :=
  mkCA (c_log a) (c_init a) (c_initargs a) (c_app a) (c_test a) (c_mode a) (c_trans a) (c_mid a)
       (default 1 (parse_num U8_MAX v)).
Definition set_text (a : cargs) (k : ctok) (v : list N) : option cargs :=
  match k with
  | TLog => Some (mkCA v (c_init a) (c_initargs a) (c_app a) (c_test a) (c_mode a) (c_trans a) (c_mid a) (c_workers a))
  | TInit => Some (mkCA (c_log a) v (c_initargs a) (c_app a) (c_test a) (c_mode a) (c_trans a) (c_mid a) (c_workers a))
  | TInitArgs => Some (mkCA (c_log a) (c_init a) v (c_app a) (c_test a) (c_mode a) (c_trans a) (c_mid a) (c_workers a))
  | TApp => Some (mkCA (c_log a) (c_init a) (c_initargs a) v (c_test a) (c_mode a) (c_trans a) (c_mid a) (c_workers a))
  | TTest => Some (mkCA (c_log a) (c_init a) (c_initargs a) (c_app a) (Some v) (c_mode a) (c_trans a) (c_mid a) (c_workers a))
  | TMid => Some (set_mid a v)
  | TWorkers => Some (set_workers a v)
  | _ => None
  end.
Definition set_ident (a : cargs) (k : ctok) (v : list N) : option cargs :=
  match k with
  | TMode => Some (mkCA (c_log a) (c_init a) (c_initargs a) (c_app a) (c_test a) (mode_of v) (c_trans a) (c_mid a) (c_workers a))
  | TTransport => Some (mkCA (c_log a) (c_init a) (c_initargs a) (c_app a) (c_test a) (c_mode a) (trans_of v) (c_mid a) (c_workers a))
  | _ => set_text a k v
  end.
(** The tokens that announce a value, :166-176, :221-229. *)
Definition is_key (t : ctok) : bool :=
  match t with
  | TLog | TMode | TTransport | TTest | TInit | TInitArgs | TApp | TMid | TWorkers => true
  | _ => false
  end.

(** One round of the loop of from_str, :161-298. *)
Definition cmd_step (a : cargs) (prev : ctok) (t : ctok) (slice : list N) : res (cargs * ctok) :=
  match t with
  | TKernel | TSkip => Ok (a, prev)
  | TIdent => match set_ident a prev slice with Some a => Ok (a, TError) | None => Err InvalidCmdLineOptions end
  | TSep => if is_key prev then Ok (a, prev) else Err MalformedCmdLine
  | TLit =>
      (* &slice[1..slice.len() - 1] *)
      if (length slice <? 2)%nat then Panic
      else match set_text a prev (take (length slice - 2) (drop 1 slice)) with
           | Some a => Ok (a, TError)
           | None => Ok (a, prev)
           end
  | TError => Err MalformedCmdLine
  | t => Ok (a, t)
  end.
Fixpoint cmd_loop (a : cargs) (prev : ctok) (l : list (ctok * list N)) : res cargs :=
  match l with
  | [] => Ok a
  | (t, slice) :: l =>
      match cmd_step a prev t slice with
      | Ok (a, prev) => cmd_loop a prev l
      | Err e => Err e
      | Panic => Panic
      end
  end.
(** CommandLineArguments::from_str, :151-316, of a kernel built with the features shmem and ethernet or not. *)
Definition cmd_parse (f_shmem f_eth : bool) (s : list N) : res cargs :=
  match cmd_loop ca_default TError (lex (length s) s) with
  | Ok a =>
      if negb f_shmem && bool_decide (c_mode a <> Native) && bool_decide (c_trans a = Shmem)
      then Err InvalidCmdLineOptions
      else if negb f_eth && bool_decide (c_mode a <> Native) && bool_decide (c_trans a = Ethernet)
      then Err InvalidCmdLineOptions
      else Ok a
  | r => r
  end.

(** str::split at spaces. *)
Fixpoint split_sp (s : list N) : list (list N) :=
  match s with
  | [] => [[]]
  | c :: s =>
      if c =? SPACE then [] :: split_sp s
      else match split_sp s with w :: l => (c :: w) :: l | [] => [[c]] end
  end.
(** str::rsplit: the same pieces from the end. *)
Definition rsplit_sp (s : list N) : list (list N) := reverse (split_sp s).
(** argv of the C program, crt/mod.rs:296-312; CString::new fails on a zero byte. *)
Definition crt_argv (app : list N) : res (list (list N)) :=
  if existsb (existsb (N.eqb 0)) (rsplit_sp app) then Panic else Ok (chars "some.bin" :: rsplit_sp app).
