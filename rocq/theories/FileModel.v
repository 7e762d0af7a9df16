(** Model of the in-memory file: kernel/src/fs/file.rs (one file, its list of
    buffers).  Executable definitions only.

    Bytes are [N]; offsets and lengths are [nat] (unbounded: the system call
    layer bounds offsets by i64::MAX and lengths by i32::MAX, so the [usize]
    additions below cannot wrap). [ps] is the buffer size, BASE_PAGE_SIZE in
    the code; it is a parameter so that proofs do not depend on 4096. *)
From Verif Require Import Base.

(** kernel/src/arch/x86_64/memory.rs / x86 crate: BASE_PAGE_SIZE = 4096. *)
Definition BASE_PAGE_SIZE : nat := N.to_nat 4096.

Notation byte := N (only parsing).

(** file.rs:14-35 [Buffer], [File].  [Buffer.data] is a vector with capacity
    BASE_PAGE_SIZE; only its contents are modelled. *)
Record file := mkFile { mcache : list (list byte); fmodes : N }.

(** file.rs:39-42 [File::new] (the allocation of the 64-entry vector is assumed
    to succeed). *)
Definition file_new (modes : N) : file := mkFile [] modes.

(** file.rs:56-65: scan all buffers until the first empty one. *)
Fixpoint sum_until_empty (l : list (list byte)) : nat :=
  match l with
  | [] => 0
  | b :: l' => match length b with
               | 0 => 0
               | n => n + sum_until_empty l'
               end
  end.

(** file.rs:47-71 [get_size]. *)
Definition get_size (ps : nat) (l : list (list byte)) : nat :=
  let buffer_num := length l in
  match buffer_num with
  | 0 => 0
  | 1 => length (default [] (l !! (buffer_num - 1)))
  | _ => match length (default [] (l !! (buffer_num - 1))) with
         | 0 => sum_until_empty l
         | last_len => (buffer_num - 1) * ps + last_len
         end
  end.

(** [Vec::try_resize(n, 0)] (within capacity). *)
Definition vec_resize (n : nat) (b : list byte) : list byte :=
  take n b ++ replicate (n - length b) 0%N.

(** file.rs:250-256 [ceil]. *)
Definition ceil (bytes bs : nat) : nat :=
  let v := bytes / bs in if decide (v * bs < bytes) then v + 1 else v.

(** file.rs:261-263 [offset_to_buffernum]. *)
Definition offset_to_buffernum (offset bs : nat) : nat := offset / bs.

(** Replace the last element (file.rs:98-102, 107-111, 134-137: [last_mut]). *)
Fixpoint update_last {A} (g : A -> A) (l : list A) : list A :=
  match l with
  | [] => []
  | [x] => [g x]
  | x :: l' => x :: update_last g l'
  end.

(** file.rs:80-142 [increase_file_size].  [avail] is the number of fresh
    BASE_PAGE_SIZE buffers the heap can still supply (file.rs:119): if it is too
    small the call fails *after* the last existing buffer was already resized
    (file.rs:106-112).  The allocation of the vector of buffer headers
    (file.rs:116,140) is assumed to succeed.  Returns the new buffer list and
    whether the call succeeded. *)
Definition increase_file_size (ps avail : nat) (l : list (list byte))
    (curr_file_len new_len : nat) : bool * list (list byte) :=
  if decide (new_len = 0) then (true, l) else
  let free_in_last_buffer :=
    match last l with Some b => ps - length b | None => 0 end in
  let add_new := new_len - curr_file_len in
  if decide (add_new <= free_in_last_buffer) then
    let offset := match last l with Some b => length b | None => 0 end in
    (true, update_last (vec_resize (offset + add_new)) l)
  else
    let l1 := match l with [] => l | _ => update_last (vec_resize ps) l end in
    let remaining := add_new - free_in_last_buffer in
    let new_buffers := ceil remaining ps in
    if decide (avail < new_buffers) then (false, l1) else
    let vec := replicate new_buffers (replicate ps 0%N) in
    let vec :=
      if decide (new_len mod ps <> 0) then
        let sure_bytes_to_write := (new_buffers - 1) * ps in
        let bytes_in_last_buffer := new_len - (get_size ps l1 + sure_bytes_to_write) in
        update_last (vec_resize bytes_in_last_buffer) vec
      else vec in
    (true, l1 ++ vec).

(** Overwrite [length d] elements of [b] from index [o]
    (slice assignment [b[o..o+n].copy_from_slice(d)]); [None] is the
    out-of-bounds panic. *)
Definition copy_into {A} (b : list A) (o : nat) (d : list A) : option (list A) :=
  if decide (o + length d <= length b) then
    Some (take o b ++ d ++ drop (o + length d) b)
  else None.

(** file.rs:216-237: the copy loop of [write_file].  [fuel] bounds the number of
    iterations (each iteration copies at least one byte when [ps > 0]); running
    out of fuel or indexing out of bounds is [None] (panic). *)
Fixpoint write_loop (ps fuel : nat) (l : list (list byte)) (data : list byte)
    (buffer_num offset_in_buffer copied : nat) : option (list (list byte)) :=
  if decide (copied < length data) then
    match fuel with
    | 0 => None
    | S fuel' =>
      let useful := ps - offset_in_buffer in
      let remaining := length data - copied in
      let n := if decide (useful <= remaining) then useful else remaining in
      b ← l !! buffer_num;
      b' ← copy_into b offset_in_buffer (take n (drop copied data));
      write_loop ps fuel' (<[buffer_num := b']> l) data (S buffer_num) 0 (copied + n)
    end
  else Some l.

(** file.rs:193-240 [write_file]; [len] in the code is always [buffer.len()]
    (mnode.rs:78-80), so it is [length data] here. *)
Definition write_file (ps avail : nat) (f : file) (data : list byte)
    (start_offset : nat) : res nat * file :=
  let curr_file_len := get_size ps (mcache f) in
  let new_len := start_offset + length data in
  let '(ok, l) :=
    if decide (0 < new_len /\ curr_file_len < new_len)
    then increase_file_size ps avail (mcache f) curr_file_len new_len
    else (true, mcache f) in
  if negb ok then (Err OutOfMemory, mkFile l (fmodes f)) else
  let buffer_num := offset_to_buffernum start_offset ps in
  let offset_in_buffer := start_offset - buffer_num * ps in
  match write_loop ps (S (length data)) l data buffer_num offset_in_buffer 0 with
  | Some l' => (Ok (length data), mkFile l' (fmodes f))
  | None => (Panic, mkFile l (fmodes f))
  end.

(** file.rs:160-184: the copy loop of [read_file].  The destination is a kernel
    buffer ([SliceAccess] for byte slices, kernel/src/process.rs:735-747). *)
Fixpoint read_loop (ps fuel : nat) (l : list (list byte)) (dst : list byte)
    (len buffer_num offset_in_buffer copied : nat) : option (list byte) :=
  if decide (copied < len) then
    match fuel with
    | 0 => None
    | S fuel' =>
      b ← l !! buffer_num;
      if decide (length b < offset_in_buffer) then None else
      let useful := length b - offset_in_buffer in
      let remaining := len - copied in
      let n := if decide (useful <= remaining) then useful else remaining in
      dst' ← copy_into dst copied (take n (drop offset_in_buffer b));
      read_loop ps fuel' l dst' len (S buffer_num) 0 (copied + n)
    end
  else Some dst.

(** file.rs:147-187 [read_file]. Returns the number of bytes copied and the
    destination buffer. *)
Definition read_file (ps : nat) (f : file) (dst : list byte)
    (start_offset end_offset : nat) : res (nat * list byte) :=
  let buffer_num := offset_to_buffernum start_offset ps in
  let offset_in_buffer := start_offset - buffer_num * ps in
  let len := end_offset - start_offset in
  match read_loop ps (S len) (mcache f) dst len buffer_num offset_in_buffer 0 with
  | Some dst' => Ok (len, dst')
  | None => Panic
  end.

(** file.rs:243-245 [file_truncate]. *)
Definition file_truncate (f : file) : file := mkFile [] (fmodes f).
