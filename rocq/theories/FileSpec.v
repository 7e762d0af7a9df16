(** Specification of a file for a reader of the English properties C01/C02: a
    size and a total function from positions to bytes.  No buffers, no pages. *)
From Verif Require Import Base.

Record afile := mkAfile { asize : nat; abyte : nat -> N }.

(** An empty file. *)
Definition a_new : afile := mkAfile 0 (fun _ => 0%N).

(** Writing [d] at [off]: positions [off .. off+|d|) get the new bytes, every
    other position keeps its byte; the size becomes the larger of the old size
    and the end of the write. *)
Definition a_write (a : afile) (off : nat) (d : list N) : afile :=
  mkAfile (Nat.max (asize a) (off + length d))
    (fun i => if decide (off <= i < off + length d)
              then default 0%N (d !! (i - off)) else abyte a i).

(** Truncation empties the file and forgets every byte. *)
Definition a_truncate (a : afile) : afile := mkAfile 0 (fun _ => 0%N).

(** A read of [n] bytes at [off] returns the stored bytes of the positions
    [off .. min(off+n, size)). *)
Definition a_read (a : afile) (off n : nat) : list N :=
  abyte a <$> seq off (Nat.min n (asize a - off)).

(** Requests on one open file, and what the specification answers. *)
Inductive fop :=
| FWrite (off : nat) (d : list N)
| FRead (off n : nat)
| FTruncate
| FSize.

Inductive fout :=
| OWrote (n : nat) | ORead (d : list N) | OTruncated | OSize (n : nat).

Definition a_step (a : afile) (o : fop) : fout * afile :=
  match o with
  | FWrite off d => (OWrote (length d), a_write a off d)
  | FRead off n => (ORead (a_read a off n), a)
  | FTruncate => (OTruncated, a_truncate a)
  | FSize => (OSize (asize a), a)
  end.

Fixpoint a_run (a : afile) (l : list fop) : list fout :=
  match l with
  | [] => []
  | o :: l' => let '(r, a') := a_step a o in r :: a_run a' l'
  end.
