(** Model of how the boot loader finds programs on the boot volumes and hands
    them to the kernel, and of how the kernel looks a program up by its name.

    Modelled code:
      bootloader/src/modules.rs:21-204          locate_binary, determine_file_size, load_binary_into_memory, load_modules_on_all_sfs, load_modules, DCStr16
      bootloader/src/main.rs:102-116            allocate_pages
      bootloader/src/main.rs:348-369, 485-496   search for "kernel" and "cmdline.in", the module list of the kernel
      bootloader/src/kernel.rs:47-60            the two address translations
      lib/bootloader_shared/src/lib.rs:19-96    Module
      lib/bootloader_shared/src/lib.rs:183-212  kernel_binary, MAX_MODULES
      kernel/src/process.rs:501-510             look-up of the binary in make_process
      kernel/src/arch/x86_64/process.rs:1349-1365  look-up of the module in Process::load

    The firmware is the environment: its volumes, its page allocator and the
    way it reads a directory (UEFI specification 2.8, 13.5, EFI_FILE_PROTOCOL.Read:
    an entry that does not fit the buffer gives an error and leaves the
    position unchanged).

    Simplifications: file names compare exactly (a FAT volume ignores case);
    reading a file returns all of it; the other errors of the firmware
    (no volume, no protocol) and its alignment check of the entry buffer are
    left out.  [None] is a panic of the boot loader: the machine does not
    start. *)
From Verif Require Import Base.

(** An entry in the root directory of a volume: its name in 16-bit units
    (without the final zero), whether it is a directory, its contents. *)
Record entry := Entry { e_name : list N; e_dir : bool; e_data : list N }.

(** A volume is its root directory, in the order in which it is read. *)
Definition volume := list entry.

(** Physical memory. *)
Definition memory := N → N.

(** bootloader/src/modules.rs:16, x86 crate: BASE_PAGE_SIZE. *)
Definition PAGE : N := 4096.

(** lib/bootloader_shared/src/lib.rs:36: Module::MAX_NAME_LEN. *)
Definition MAX_NAME_LEN : nat := 32.

(** lib/bootloader_shared/src/lib.rs:211: KernelArgs::MAX_MODULES. *)
Definition MAX_MODULES : nat := 32.

(** bootloader/src/modules.rs:139: MAX_FILE_INFO_SIZE. *)
Definition MAX_FILE_INFO_SIZE : nat := 256.

(** bootloader/src/kernel.rs:60: KERNEL_OFFSET. *)
Definition KERNEL_OFFSET : N := 2 ^ 46.

(** "kernel", "cmdline.in" and "BootX64.efi" as bytes
    (main.rs:354, 358; modules.rs:149). *)
Definition s_kernel : list N := [107; 101; 114; 110; 101; 108]%N.
Definition s_cmdline : list N := [99; 109; 100; 108; 105; 110; 101; 46; 105; 110]%N.
Definition s_loader : list N := [66; 111; 111; 116; 88; 54; 52; 46; 101; 102; 105]%N.

(** bootloader/src/modules.rs:195-199: the conversion of a unit to a [char]
    fails for the units of surrogate pairs. *)
Definition is_char (u : N) : bool := ((u <? 55296) || (57344 <=? u))%N.

(** bootloader/src/modules.rs:189-203: DCStr16 into String: units that are no
    [char] are left out. *)
Definition to_chars (n : list N) : list N := List.filter is_char n.

(** The bytes of one [char] of at most 16 bits in a String (UTF-8). *)
Definition utf8_char (u : N) : list N :=
  if (u <? 128)%N then [u]
  else if (u <? 2048)%N then [192 + u / 64; 128 + u mod 64]%N
  else [224 + u / 4096; 128 + (u / 64) mod 64; 128 + u mod 64]%N.

(** The bytes of a String. *)
Definition utf8 (s : list N) : list N := concat (map utf8_char s).

(** lib/bootloader_shared/src/lib.rs:20-32: Module. *)
Record module := Module {
  m_name : list N;      (* array of 32 bytes *)
  m_len : nat;
  m_vaddr : N;
  m_paddr : N;
  m_size : N }.

(** lib/bootloader_shared/src/lib.rs:40-58: Module::new. *)
Definition module_new (name : list N) (vaddr paddr size : N) : module :=
  let len := min (length name) MAX_NAME_LEN in
  Module (take len name ++ replicate (MAX_NAME_LEN - len) 0%N) len vaddr paddr size.

(** lib/bootloader_shared/src/lib.rs:61-63: Module::name. Simplification: the
    case of bytes that are no UTF-8 is left out; the name is never cut. *)
Definition module_name (m : module) : list N := take (m_len m) (m_name m).

(** The [size] bytes of a memory from [base] on: slice::from_raw_parts. *)
Definition slice (mem : memory) (base size : N) : list N :=
  map (λ i, mem (base + N.of_nat i)%N) (seq 0 (N.to_nat size)).

(** The memory after storing bytes from [base] on. *)
Definition store (mem : memory) (base : N) (data : list N) : memory :=
  λ a, if ((base <=? a) && (a <? base + N.of_nat (length data)))%N
       then nth (N.to_nat (a - base)) data 0%N else mem a.

(** The memory after clearing [size] bytes from [base] on (set_mem). *)
Definition clear (mem : memory) (base size : N) : memory :=
  λ a, if ((base <=? a) && (a <? base + size))%N then 0%N else mem a.

(** Memory as the kernel sees it: physical memory from KERNEL_OFFSET on
    (bootloader/src/kernel.rs:52-54; main.rs: map_physical_memory, C60). *)
Definition kernel_view (mem : memory) : memory := λ v, mem (v - KERNEL_OFFSET)%N.

(** lib/bootloader_shared/src/lib.rs:83-85: Module::as_slice, in the kernel. *)
Definition as_slice (mem : memory) (m : module) : list N :=
  slice (kernel_view mem) (m_vaddr m) (m_size m).

(** lib/bootloader_shared/src/lib.rs:93-95: Module::as_pslice, in the boot loader. *)
Definition as_pslice (mem : memory) (m : module) : list N :=
  slice mem (m_paddr m) (m_size m).

(** The page allocator of the firmware: from the allocations made (base and
    number of pages) and a number of pages to a base, or an error. *)
Definition allocator := list (N * N) → N → option N.

(** What the boot loader has loaded: the memory, the allocations made, the
    modules with their names. *)
Record lstate := LState {
  l_mem : memory;
  l_log : list (N * N);
  l_mods : list (list N * module) }.

(** bootloader/src/main.rs:102-116: allocate_pages, with the error a panic;
    clears the pages. *)
Definition allocate_pages (pick : allocator) (pages : N) (s : lstate) : option (N * lstate) :=
  match pick (l_log s) pages with
  | None => None
  | Some base =>
      Some (base, LState (clear (l_mem s) base (pages * PAGE))
                         ((base, pages) :: l_log s) (l_mods s))
  end.

(** The firmware opens a file of a directory by its name. *)
Fixpoint open_name (v : volume) (n : list N) : option entry :=
  match v with
  | [] => None
  | e :: v' => if bool_decide (e_name e = n) then Some e else open_name v' n
  end.

(** bootloader/src/modules.rs:24-45: locate_binary. *)
Definition locate_binary (v : volume) (n : list N) : option entry :=
  match open_name v n with
  | Some e => if e_dir e then None else Some e
  | None => None
  end.

(** bootloader/src/modules.rs:64-97: load_binary_into_memory. *)
Definition load_binary (pick : allocator) (v : volume) (n : list N) (s : lstate)
    : option (module * lstate) :=
  match locate_binary v n with
  | None => None
  | Some e =>
      let size := N.of_nat (length (e_data e)) in
      match allocate_pages pick ((size + PAGE - 1) / PAGE)%N s with
      | None => None
      | Some (base, s1) =>
          Some (module_new (utf8 n) (KERNEL_OFFSET + base)%N base size,
                LState (store (l_mem s1) base (e_data e)) (l_log s1) (l_mods s1))
      end
  end.

(** Directory::read_entry of the firmware with a buffer of 256 bytes: the
    entry takes 80 bytes and its name with the final zero. *)
Inductive read_result := ReadEnd | ReadError | ReadEntry (e : entry) (rest : list entry).

Definition read_entry (rest : list entry) : read_result :=
  match rest with
  | [] => ReadEnd
  | e :: rest' =>
      if decide (80 + 2 * (length (e_name e) + 1) ≤ MAX_FILE_INFO_SIZE)
      then ReadEntry e rest' else ReadError
  end.

(** bootloader/src/modules.rs:145-167: what is done with an entry. *)
Definition load_entry (pick : allocator) (v : volume) (e : entry) (s : lstate) : option lstate :=
  if e_dir e then Some s
  else
    let name := to_chars (e_name e) in
    if bool_decide (utf8 name ≠ s_loader) && (length (utf8 name) <? MAX_NAME_LEN)
    then
      match load_binary pick v name s with
      | None => None
      | Some (m, s') => Some (LState (l_mem s') (l_log s') (l_mods s' ++ [(utf8 name, m)]))
      end
    else Some s.

(** bootloader/src/modules.rs:142-173: one round of the loop over the entries. *)
Definition load_round (pick : allocator) (v : volume) (rest : list entry) (s : lstate)
    : option (list entry * lstate) :=
  match read_entry rest with
  | ReadEnd | ReadError => Some (rest, s)
  | ReadEntry e rest' =>
      match load_entry pick v e s with
      | None => None
      | Some s' => Some (rest', s')
      end
  end.

(** bootloader/src/modules.rs:138-174: the loop over the entries. *)
Fixpoint load_loop (pick : allocator) (v : volume) (fuel : nat) (rest : list entry) (s : lstate)
    : option lstate :=
  match fuel with
  | 0 => Some s
  | S k =>
      match load_round pick v rest s with
      | None => None
      | Some (rest', s') => load_loop pick v k rest' s'
      end
  end.

(** bootloader/src/modules.rs:128-181: load_modules; the modules go to the end
    of the list of all volumes (modules.rs:117). *)
Definition load_modules (pick : allocator) (v : volume) (s : lstate) : option lstate :=
  load_loop pick v MAX_MODULES v s.

(** bootloader/src/modules.rs:105-121: load_modules_on_all_sfs. *)
Fixpoint load_all (pick : allocator) (vs : list volume) (s : lstate) : option lstate :=
  match vs with
  | [] => Some s
  | v :: vs' =>
      match load_modules pick v s with
      | None => None
      | Some s' => load_all pick vs' s'
      end
  end.

(** bootloader/src/main.rs:351-363: the last module with the name. *)
Definition blob_of (name : list N) (mods : list (list N * module)) : option module :=
  fold_left (λ acc p, if bool_decide (p.1 = name) then Some p.2 else acc) mods None.

(** ArrayVec::push, which panics when the array is full. *)
Definition push (args : list module) (m : module) : option (list module) :=
  if length args <? MAX_MODULES then Some (args ++ [m]) else None.

Fixpoint push_all (args ms : list module) : option (list module) :=
  match ms with
  | [] => Some args
  | m :: ms' =>
      match push args m with
      | None => None
      | Some args' => push_all args' ms'
      end
  end.

(** bootloader/src/main.rs:485-496: the module list of the kernel. *)
Definition kernel_modules (mods : list (list N * module)) : option (list module) :=
  push_all []
    (map snd (List.filter (λ p, bool_decide (p.1 = s_kernel)) mods) ++
     map snd (List.filter (λ p, bool_decide (p.1 ≠ s_kernel)) mods)).

(** What the boot loader gives to the kernel: the memory, the image it starts,
    the command line, the modules. *)
Record handover := Handover {
  h_mem : memory;
  h_kernel : list N;
  h_cmdline : list N;
  h_modules : list module }.

(** bootloader/src/main.rs:348-369, 485-496. *)
Definition boot (pick : allocator) (mem : memory) (vs : list volume) : option handover :=
  match load_all pick vs (LState mem [] []) with
  | None => None
  | Some s =>
      match blob_of s_kernel (l_mods s), blob_of s_cmdline (l_mods s) with
      | Some k, Some c =>
          match kernel_modules (l_mods s) with
          | None => None
          | Some ms => Some (Handover (l_mem s) (as_pslice (l_mem s) k) (as_pslice (l_mem s) c) ms)
          end
      | _, _ => None
      end
  end.

(** kernel/src/process.rs:502-510: the binary in make_process, whose data
    sections are prepared from it; [None] is BinaryNotFound. *)
Definition find_binary (ms : list module) (name : list N) : option module :=
  fold_left (λ acc m, if bool_decide (module_name m = name) then Some m else acc) ms None.

(** kernel/src/arch/x86_64/process.rs:1353-1361: the module in Process::load,
    from which the address space is filled; [None] is the panic of line 1361. *)
Fixpoint find_module (ms : list module) (name : list N) : option module :=
  match ms with
  | [] => None
  | m :: ms' => if bool_decide (module_name m = name) then Some m else find_module ms' name
  end.

(** lib/bootloader_shared/src/lib.rs:195-201: kernel_binary. *)
Definition kernel_binary (h : handover) : option (list N) :=
  match h_modules h with
  | [] => None
  | m :: _ => Some (as_slice (h_mem h) m)
  end.
