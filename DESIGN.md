# Formal model of node-replicated-kernel in Rocq (Coq 8.16.1)

Source of truth: `/repo` at the pinned commit (read as text only). Properties: `properties.jsonl`.
Claims: `MANIFEST.json`. Proofs: `rocq/theories`. Experiments with wrong programs: `seeded/LOG.jsonl`.

## Layout of the development

Every subsystem has

* `XModel.v`  executable definitions only, each citing the file/lines it models and every simplification;
* `XSpec.v`   (where the specification is more than a few lines) the specification, independent of the model's helpers;
* `XProofs.v` the lemmas;
* `XProps.v`  the property theorems, `Print Assumptions` for each, and `Example`s showing that concrete non-trivial
  cases meet their hypotheses.  (In the smaller subsystems the lemmas are here too.)

Conventions: `usize/u64` values are `N` (or `nat` for lengths/indices of lists); a panic (`assert!`, `unwrap`,
`expect`, `unreachable!`, slice out of bounds, checked arithmetic) is an explicit `Panic` outcome; `Result` stays data;
`&mut self` becomes a returned new state; loops are structural recursion or carry fuel whose sufficiency is proved;
concurrent code is a state with the program counters of any number of threads, one atomic access per step, and theorems
quantify over all schedules.  Allocation failures, refills, time, spurious compare-exchange failures and the answers of
external parties are inputs of the step, so theorems quantify over them.

Status: a claim is `proved` only if no refutation falls inside the claim's own quantifier.  If one does, the claim is
`partial`, what is false is a theorem `…_refuted` with a witness execution, and the strongest true guarded version has
the suffix `_partial` (or its guard is part of the English claim).

## Trusted base

* Coq's kernel (8.16.1), including its `vm_compute` conversion (used in examples and witnesses; `coqchk` re-checks
  them without it).
* `Print Assumptions`: every theorem in `MANIFEST.json` reports "Closed under the global context": no axioms, neither
  ours nor the library's.  Libraries used: Coq's standard library and std++ (`gmap`, lists, sets).
* The faithfulness of the hand-written model with respect to the Rust source (per-definition citations).
* Sequential consistency: atomics are single steps; weak-memory behaviour (`Ordering::Relaxed` etc.) is not modelled.
* External crates, by what the code relies on: `node-replication`/`cnr` deliver each log's operations in order, once,
  to each replica (C09 states which orders are considered); `x86` packs and unpacks entries faithfully; `elfloader`
  calls the loader's functions in the order stated in `ElfModel`; `arrayvec`, `crossbeam`'s cache padding, `spin`,
  `lazy_static` behave as documented.  `slabmalloc`, `fringe`, `smoltcp`, `abomonation` are not modelled.

## What is modelled

| files | code | properties |
|-------|------|------------|
| `File*` | kernel/src/fs/file.rs (all of it) | C01, C02 |
| `Fs*` | kernel/src/fs/{mod,mnode,fd,cnrfs}.rs: MlnrFS, Mnode, descriptor table, dispatch/dispatch_mut; lib/kpi/src/io.rs flags and modes | C01, C03–C08, C10 |
| `Cnr*` | LogMapper of cnrfs.rs; consumption orders of several logs | C09 |
| `Rw*` | kernel/src/fs/rwlock.rs | C11 |
| `Mem*` | kernel/src/memory/{frame,mcache,emem,utils}.rs | C12–C15 |
| `Det*` | kernel/src/memory/detmem.rs | C16 |
| `Vs*` | kernel/src/memory/vspace.rs, arch/x86_64/vspace/{mod,page_table}.rs | C17–C22 |
| `Um*` | lib/vibrio/src/rumprt/crt/mem.rs:213-342, lib/vibrio/src/mem.rs:136-336 (the pagers are `Pg*`) | C53 |
| `Tcp*` | lib/rpc/src/transport/smoltcp.rs: send, recv, recv_msg and the Transport functions (TCP itself, in the smoltcp crate, as two buffers and a wire) | C54 |
| `Tr*` | lib/rpc/src/client.rs call, server.rs handle, try_handle, receive, try_receive, reply over the transport of `Tcp*` | C55 |
| `Ntx*` | lib/vmxnet3/src/var.rs:282-526 TxQueue (enqueue store by store) with the card at the other end of its rings | C56 |
| `Nrx*` | lib/vmxnet3/src/var.rs:532-914 RxQueue (enqueue store by store) with the card at the other end of its rings | C57 |
| `Blv*` | bootloader/src/vspace.rs: the kernel's first address space, `map_generic` with all three page sizes, `resolve_addr` | C58 |
| `Bli*` | bootloader/src/kernel.rs: the ElfLoader for the kernel image; vspace.rs: allocate_pages_aligned | C59 |
| `Blp*` | bootloader/src/main.rs: map_physical_memory and the initial stack | C60 |
| `Shm*` | kernel/src/transport/shmem.rs (division of shared memory), shmem_affinity.rs, lib/rpc shmem allocator and queue layout, the checks of dealloc | C61 |
| `Rtl*` | `kernel/src/arch/x86_64/tlb.rs` (remote_shootdown :418-490, shootdown :311-393, remote_enqueue/remote_dequeue :201-229), `irq.rs:739-803` | C62 |
| `Lwp*` | lib/vibrio/src/rumprt/prt/mod.rs: park, unpark, unpark_all, exit, makelwp (its last two steps), lwp_init; the scheduler as the number of entries of a thread in its run queue | C63 |
| `Cmd*` | kernel/src/cmdline.rs (lexer and parser), lib/vibrio/src/rumprt/crt/mod.rs (argv) | C64 |
| `Inf*` | lib/kpi/src/syscalls/process.rs (process_info), system.rs (threads), the system calls behind them, the CBOR and abomonation encodings of what they send, the controller's list of threads (registration, get_hardware_threads) | C65 |
| `Cv*` | lib/lineup/src/condvar.rs on the run queue and timers of scheduler.rs; the mutex is reduced to its holder | C66 |
| `Gdb*` | kernel/src/arch/x86_64/gdb/ (breakpoints, stop reasons, memory, registers), debug registers, Ring0Resumer; not the protocol of gdbstub, the serial line and section offsets | C67 |
| `Tls*` | lib/lineup/src/tls2/, the blocks of scheduler.rs, kernel/src/arch/x86_64/tls.rs, variant II addressing of the x86-64 TLS ABI; not allocation failure | C68 |
| `Irq*` | kernel/src/arch/x86_64/{isr.S,exec.S}, resume code of process.rs, gates and dispatch of irq.rs, entry of syscall.rs, lib/kpi syscall macros, lib/vibrio/src/upcalls.rs; not exceptions inside isr.S | C69, C70 |
| `Dma*` | lib/vibrio/src/rumprt/dev.rs (not rumpcomp_pci_map, dmamem_map), system call Identify, ioapic_establish_route | C71 |
| `Cb*` | kernel/src/arch/x86_64/coreboot.rs, start_ap.S, start_app_core up to the signal, kernel/src/stack.rs | C72 |
| `Pci*` | kernel/src/pci.rs | C73 |
| `Vcp*` | lib/lineup/src/mutex.rs, condvar.rs, lib/vibrio/src/rumprt (locking.rs, clock_sleep, upcalls) | C74 |
| `Rsu*` | kernel/src/arch/x86_64/rackscale/controller.rs, lib/rpc/src/server.rs, client.rs (connect, call) | C75 |
| `Rfs*` | lib/vibrio/src/rumprt/fs.rs, lib/kpi/src/syscalls/io.rs (file calls) | C76 |
| `Con*` | kernel/src/arch/x86_64/serial.rs, rackscale/processops/print.rs, log and exit of syscall.rs, lib/vibrio/src/writer.rs, rumpuser_putchar | C77 |
| `Bm*` | bootloader/src/modules.rs, the module list of bootloader/src/main.rs, Module of lib/bootloader_shared, the look-ups of kernel/src/process.rs and arch/x86_64/process.rs | C78 |
| `Env*` | lib/vibrio/src/rumprt/mod.rs: rumpuser_getrandom, rumpuser_clock_gettime, rumpuser_getparam | C79 |
| `Acp*` | kernel/src/arch/x86_64/acpi.rs: root pointer, memory, mapping, PCI reads | C80 |
| `Ref*` | kernel/src/memory/mod.rs: try_refill_shmem, with the caches of mcache.rs and the two requests for frames | C81 |
| `Vmx*` | lib/vmxnet3/src/vmx.rs: setting up the card (not the queues themselves, C56 and C57), the shared records of reg.rs by fields | C82 |
| `Mas*` | kernel/src/memory/vspace_model.rs (all of it), calls of arch/x86_64/vspace/test.rs | C52 |
| `Sys*` | lib/kpi/src/syscalls/*, kernel/src/syscalls.rs, arch/x86_64/syscall.rs (entry, decoding, error numbers), kernel/src/memory/mod.rs + process.rs UVAddr/UserSlice, gtid arithmetic of kpi/environment | C23, C32, C33 |
| `Node*` | kernel/src/nr.rs (KernelNode), ProcessFrames of kernel/src/process.rs | C24–C26 |
| `Queue*` | kernel/src/mpmc.rs | C27 |
| `Rpc*` | lib/rpc: shmem/queue_mpmc.rs, shmem/transport.rs, client.rs, server.rs, rpc.rs | C28, C29 |
| `Tlb*`, `CntLib` | CoreBitMap (memory/vspace.rs), arch/x86_64/tlb.rs | C30, C31 |
| `Mtx*`, `Urw*`, `Sem*`, `Sch*` | lib/lineup/src/{mutex,rwlock,semaphore,condvar,scheduler,threads}.rs | C34–C37 |
| `Pg*` | lib/vibrio/src/mem.rs, rumprt/crt/mem.rs (mmap) | C38 |
| `Dcm*`, `Thm*` | arch/x86_64/rackscale/dcm/*, controller_state.rs, processops/{request,release}_core.rs | C39, C40 |
| `Prc*`, `Sc*` | kernel/src/nrproc.rs, arch/x86_64/process.rs (Ring3Process, Ring3Executor), memory system calls of arch/x86_64/syscall.rs | C26, C30, C41, C43 |
| `Elf*` | DataSecAllocator (kernel/src/process.rs), ElfLoader of arch/x86_64/process.rs | C42 |
| `Boot*` | UEFI memory map, NUMA affinities, GlobalMemory::new (arch/x86_64/memory.rs, memory/global.rs:32-155) over the page caches of `Mem*` | C45, C46 |
| `Heap*` | KernelAllocator (kernel/src/memory/mod.rs:60-345, 487-785), per-core state and node selection (memory/per_core.rs), over the page caches of `Mem*` and the slab allocator as any choice of a free slot | C47–C49 |
| `Rk*` | file calls of a rack: client stubs and controller handlers of rackscale/fileops/*.rs byte by byte (encoding of requests and results, shared buffers), the controller loop and its registrations, any number of clients; over the RPC model of `Rpc*` and the file system of `Fs*` | C50 |
| `Rm*` | memory calls of a rack: map with the client's cache of pages, allocate_physical and release_physical with their controller handlers, the other memory calls of `Iso*` on the client; any number of clients and processes over one physical memory | C51 |
| `Iso*` | several processes over `Prc*`, free memory and its contents, the shared kernel slots (Ring3Process::load, arch/x86_64/process.rs:1376-1385) | C44 |

Not modelled: the remaining start-up code of kernel/src/arch/x86_64/mod.rs and of the bootloader outside of the claims C45, C46, C58–C60
and C72 (device tables, ACPI parsing, discovery of the topology), the unix back end (kernel/src/arch/unix), the segment tables, the APIC and timer drivers,
performance counters and tracing, the transport of the debugger below its packets, initialisation of persistent memory, the lists inside the slab
allocator (an external crate), emergency allocation before a core has its memory, TCP itself and the smoltcp glue (lib/vmxnet3/src/smoltcp.rs),
the remaining rackscale RPC handlers, the parts of the rump kernel runtime (lib/vibrio/src/rumprt) not named above, the user programs and
benchmarks, hardware (MMU, TLB, interrupt delivery beyond the steps in the models). The repository has no aarch64 or riscv back end.

## Per property

| id | model and specification | method | status, and what is missing from the full claim |
|----|------|--------|------|
| C01, C02 | `File`: vector of 4 KiB buffers; spec: one byte list | refinement, induction over op lists | proved |
| C03 | `FsModel`; spec: state before/after | case analysis over all operations | partial: a growing write that runs out of memory keeps the new size; rename of a path to itself |
| C04–C07 | descriptor table, name space | invariants over histories | proved |
| C08 | rename | frame lemma | partial: old = new destroys the file |
| C09 | orders that respect each log | commutation, induction over trace equivalence | partial: cursor reads on one replica, stale routing hints |
| C10 | panics explicit | exact characterisation | partial: append to a deleted open file panics |
| C11 | lock as LTS | inductive invariant | proved with the claim's proviso; the proviso is violated on a second NUMA node (refutation) |
| C12, C14, C15 | arithmetic | arithmetic | proved |
| C13 | page caches | multiset conservation | partial: failing grow keeps a part; populate loses frames when full |
| C16 | replicas interleaved with a backing allocator | invariant | partial: backing allocator failures (three witnesses) |
| C17–C19 | page table as nested finite maps; spec: a function from addresses | refinement | partial: multi-page frames, repeated smaller mapping, non-canonical addresses, non-atomic map_frames |
| C20, C21 | adjust, bookkeeping | invariant over histories | proved |
| C22 | rights ↔ entry bits | case analysis | partial: no-cache dropped, none is readable |
| C23 | user slices | arithmetic, page coverage | partial: write check is a read check; reversed sub-slice bounds in release builds |
| C24, C25 | KernelNode | response-history invariants | proved (surprises recorded as refutations outside the claims) |
| C26 | frame table and whole processes | invariant over histories, both directions | proved; the converse (unmapped frames can be released) fails after a failed or repeated map (refutations) |
| C27 | Vyukov queue as LTS; spec: bounded FIFO with claims | simulation | proved; a pop may report empty although a push completed (refutation, outside the claim) |
| C28 | byte queue | simulation onto C27 | partial: empty messages, receivers with too little room |
| C29 | client/server; spec: remote calls / procedure calls | trace inclusion | partial: handlers see stale bytes behind the payload; for handlers that look only at the payload the full claim is C29_procedure_calls_partial |
| C30 | planning + acknowledgement protocol as LTS | invariant, progress measure | partial: uncovered APIC clusters, merged interrupts, full queue, acknowledgement before flush |
| C31–C33 | bitmaps, decoders, gtids | bit lemmas, tables | proved |
| C34, C35 | mutex, rwlock as LTS | invariants | proved |
| C36 | semaphore | invariant, witnesses | partial: bound and conservation are false |
| C37 | scheduler | invariants over histories | partial: see findings |
| C38 | pagers | invariant | proved with the claim's proviso |
| C39, C40 | DCM table, thread map | invariants over interleavings | partial: early notifications hang; second registration, release |
| C41 | executors | invariant over histories | partial: failed allocation followed by unmap |
| C42 | both loader passes over byte memory | layout lemmas, induction | partial: bss not zeroed; layouts beyond those assumed |
| C43 | system calls over C17–C21 | composition | partial: malformed requests panic |
| C44 | machine of processes, free pages, bytes of memory | ownership invariant; operations below the kernel base commute with the shared slots | partial: device memory, kernel half, allocate_physical |
| C45 | boot as a function of memory map and topology; spec: how many frames cover an address | coverage counting through every stage | proved |
| C46 | as C45 | exact conservation of the early stages; counting of pages for the bounds | partial: 195 pages per node and all but 87% + 549 MiB are lost; order of nodes; label of early memory |
| C47 | kernel heap over the page caches; slab choices are inputs; spec: blocks held by users, translation of every byte, free memory | ownership invariant over histories of all cores | partial: shrinking in place to another size class |
| C48 | as C47, with the selected node of each block | as C47, frames compared with their label | partial: large blocks freed under another node |
| C49 | as C47 | case analysis of the refill paths | partial: requests up to 2 MiB; slab choices; freeing into a full cache panics; big blocks never reusable |
| C50 | clients, queues, server threads, shared buffers and file system as one transition system | simulation by a specification in which a call is one atomic local call; per-client invariant on messages in flight; correctness of each handler on the encoded request | partial: calls that do not fit one message or 8192 bytes panic the client |
| C51 | clients, their page caches, the controller's free memory, processes and memory as one state; a call is one step | ownership invariant of C44 extended to the caches; per call; counting pages for the layout of map | partial: cached pages are not zeroed, oversized frames, requests that stop a client or the controller |
| C52 | the reference address space as a log of mappings, next to the page tables of C17-C22 | simulation: the log is a permutation of the mapping table; per call from C19-C21 | partial: extensions, unaligned unmap, empty rights, frames of several pages |
| C53 | the C memory functions over the pagers of C38, slab pages with any choice of slot, memory byte by byte with the size headers | invariant: slots in use are the blocks held, fresh pages are apart from all others; expected contents kept by a separate list of byte lists | partial: in-place shrink to another class, alignments above 16, overflow, out of memory |
| C54 | one direction of a connection byte by byte, any cut of the stream per step; spec: a channel of messages | simulation: consumed bytes, buffers, wire and unsent bytes are the encoding of the channel; work measure and stuck states for delivery | partial: a receive with too little room leaves the payload in the stream |
| C55 | client and server as threads on two directions of `Tcp*`; spec: the state of a call as in C29 with the limits of TCP | simulation: at most one message under way in both channels, its content from the state of the call; stuck states and a work measure for answers | partial: a message too large for its receiver breaks the connection |
| C56 | rings as lists with generation bits, the card as a second thread; spec: three lists of chains (waiting, sent, to be taken back) | invariant with unbounded positions of which ring indices and generations are the remainder and the parity of the quotient; measure for coming to rest | partial: chains the code does not check |
| C57 | rings as lists with generation bits, memory by buffer address, the card as a second thread that writes a completion for every descriptor used; spec: two lists (chains the card may fill, chains filled with their packets) | invariant with unbounded positions for descriptors and completions; measure for the card's steps | partial: users and chains the code does not check |
| C58 | BlvModel (map_generic over the page-table contents of VsModel, panics explicit), BlvSpec (rights by name, the processor's access check over all levels) | induction over the rounds of the map, each a run of equal pages; view of every address after it | partial: overlap detection fails for large pages and user rights have no effect (both refuted) |
| C59 | BliModel (scan of the headers, aligned chunk, maps of BlvModel, bytewise load, relocations), BliSpec (the image an address should show, supported layouts) | chunk arithmetic; folds over headers with page-disjointness; last relocation wins | partial: layouts guarded; rights refuted for the build that exists |
| C60 | BlpModel (the loop over the memory map, the stack maps), BlpSpec (well-formed memory maps, rights by type) | the run as a list of maps with disjoint ranges, C58 for each | partial: skipped descriptors refuted |
| C61 | ShmModel (numbering, frames, address checks, bump allocator with interleavings, queue layout), ShmSpec (who owns an address) | sorted permutations, induction over machines, invariant of the allocator, layout arithmetic | partial: boundary and concurrency cases refuted |
| C62 | transition system over (machine, core) pairs with remote queues, local queues, one pending doorbell per machine and a stack of kernel frames per core / `flushed_since` | invariant over all runs; constructed schedule for completion; stuck-state invariant for the refutation | partial |
| C63 | transition system with one step per atomic access; history of unparks and returns / `permit` | invariants over all runs, a schedule for the end of a wait | partial |
| C64 | `CmdModel` (lexer as longest match over code points, the parser loop, number parsing, split into argv) against `CmdSpec` (settings written as text, the last value of each) | lexing lemmas per token kind, induction over the settings, snoc induction for the last value; all lines: every slice is part of the line | partial: argv is reversed; reserved words, quoted modes, bad values, paths and escapes are misread |
| C65 | `InfModel` (encoders and decoders over bytes, fixed buffers, the controller's list) against `InfSpec` (`describes`: thread and machine of an entry) | round trip of the encodings by induction, length arithmetic for the buffers, induction over registrations | partial: fixed buffers |
| C66 | interleaving model of the waiters list (read, then write), run-queue entries and timers; history of calls | invariant over calm runs, constructed schedule for the end of a wait, concrete schedules for the refutations | partial |
| C67 | four cells of entry, debug register and save-area bit against a list of points; the processor by Intel SDM 17.2 | permutation invariant over sessions, induction over the bytes of a range, concrete sessions for the refutations | partial |
| C68 | blocks in a byte memory, fs base per core, variable at fs + offset - size rounded up, against one value per thread and variable | invariant over runs relating every block to the specification, frame reasoning on disjoint blocks | partial |
| C69 | assembly as a list of instructions run by a step function over registers, segment bases, stacks and save area | symbolic execution with all registers universal | partial |
| C70 | save area, disabled flag and critical section of the vcpu on top of C69, resume code as instructions | symbolic execution; induction over later interrupts | partial |
| C71 | cache of bus addresses beside the address space; threads and the two configuration ports as a transition system; slot of the interrupt handler | invariants over histories and interleavings | partial |
| C72 | boot core, cores, boot page and flag as a transition system with one access per step; the events as the specification | invariant over all schedules | partial |
| C73 | the table and the threads, one round of a loop per step; spec: owner of a device | invariant over all schedules | proved |
| C74 | threads with virtual CPUs, mutexes and condition variables, one action between two thread switches per step; spec: number of threads with a virtual CPU | invariant over all schedules | partial |
| C75 | controller threads, poll thread and clients as interleaved steps with shared counters and one channel per client; spec: order of observed events, each call handled once | invariant over all schedules; a measure that grows under every fair schedule | partial |
| C76 | the host calls as functions over the kernel file system of C01 (FsModel); spec: rumpuser(3) on the abstract file system | refinement of every step, composed with the refinement of C01 | partial |
| C77 | cores that print byte by byte under the mutex, with buffers, the remote copy and output of the kernel; spec: what was said, shown and copied per core, and lines that are not mixed | invariants over all interleavings, a measure for return | partial |
| C78 | volumes, page allocator and memory byte by byte, loader loop with its 32 rounds, both look-ups; spec: files of volumes, a firmware that hands out pages once | frame invariant over all loads, completeness by induction over the directory | partial |
| C79 | the three calls over an arbitrary random source, time and command line; spec: draws before the first failure, nanoseconds, decimal text and its number, C strings | induction over buffer and digits | partial |
| C80 | the five services over arbitrary memory, configuration space and tables; spec: reachable uses of memory, little-endian register value | invariant over reachable states, bit fields by exhaustion of the finite field values | partial |
| C81 | both caches as stacks, the loops as recursion, the request as an arbitrary function; spec: all base pages held | induction over the loops, counting of pages | partial |
| C82 | the stores into the shared area by field address; spec: the card's reading of the area | unique store per address, byte arithmetic | partial |

## Findings (all are theorems `…_refuted` or named theorems with witnesses)

File system: a growing write that fails half way keeps the new size (C03); `rename(p, p)` removes the file (C03/C08); cursor reads move
one replica only and stale routing hints break convergence (C09); appending to a deleted open file, or routing by the
root descriptor, panics (C10).
Locks: readers of the second NUMA node use slots writers never inspect, so exclusion fails there; a spurious failure of
compare_exchange_weak in write_unlock panics (C11).  The 98th waiter of a lineup mutex panics; `Mutex::new()` can never
be entered; try_enter spins (C34).  try_enter(Write) by a former first reader panics (C35).  The semaphore's down takes all
permits and woken threads do not look again (C36).
Memory: grow and populate keep or lose frames on failure (C13); replicas of the deterministic allocator disagree if its backing
allocator fails (C16); map of a larger frame over a smaller identical mapping answers Ok without mapping; unmap of a
multi-page mapping removes one page; map_frames is not atomic; addresses from 2^48 alias; no-cache is dropped (C17–C22).
User memory: write access to read-only pages passes the check; reversed bounds escape the slice in release builds (C23).
Processes: cores stay with freed process ids, unknown ids get cores, a failed reservation on one replica makes replicas
differ (C25).  A failed or repeated map by id pins its frame for ever (C26).  After a failed executor allocation the next one panics,
or, after an unmap, two executors share memory; executors are lost when recording one fails; a user mapping in the executor area
makes the next allocation panic (C41).
Loader: zero-initialised memory keeps the page's old content; a second writable header shows the first one's frames;
read-only headers that share a 2 MiB page panic; `<=` in DataSecAllocator::relocate writes a relocation of the next page
also behind the current one (C42).
System calls: map of size 0, of an overlapping range and of unaligned ranges of 2 MiB or more panic the kernel; allocate_physical
leaks its frame if all ids are used; map_device maps any physical page (C43).  With debug assertions one test call can panic the
kernel; unknown file operations are reported as internal errors (C32).
Isolation: map_device gives access to another process's memory; map at or above the kernel base is not refused and changes the
kernel's tables, which all processes share; allocate_physical hands out frames with their old content (C44).
Boot: of the 4.25 MiB taken for a node's early cache 195 base pages fit nowhere and are dropped (the warning names 4 KiB); a node's
allocator turns 87% of each region into large pages and has room for 131071 base pages, so a 64 GiB machine loses more than 7.7 GiB; the
kernel panics if node numbers do not follow addresses (frames are sorted for persistent memory only); early memory is always
labelled node 0 (C46).
Kernel heap: shrinking a small block in place and freeing it with its new layout frees the slot of another block, which is then
handed out twice (C47); a large block freed while another node is selected becomes memory of that node (C48); freeing a large block on
a core with 128 cached large pages panics; requests above 257 MiB never succeed and panic if there is enough memory; the memory of freed blocks above 2 MiB
is never used again; alignments above 2 MiB are not honoured; a refill asks the node cache for pages the core already has (C49).
Shootdown: targets with APIC address 4..15 alone in their cluster get no interrupt (`get_bits(0..=3)`), merged interrupts or a full queue leave a call
waiting for ever, acknowledgement precedes the flush (C30).  Unmap names every core ever assigned to the process (C30_unmap_names_cores).
Queues/RPC: pop may report empty after a completed push (C27); empty messages are reported as sent and never arrive; a
receiver with too small buffers panics and disables its slot (C28); handlers see stale bytes (C29).
Scheduler: limit 2048 admits 2049 threads; a wake-up before the sleep dispatches early; a dead joiner, waking an ended
thread and an interrupt on another core panic (C37).
User heap: requests crossing a pager's limit overlap the next core's range; the search for a page skips the pager before its own;
core 0 underflows; big allocations are not contiguous at limits and ignore alignments above 2 MiB (C38).
Rack scale: `alloc_id + 1` is removed where `alloc_id + i` is meant, and early notifications hang the call (C39); a second registration frees
claimed threads, a released core is never free again and releasing claims another one; machine 0 panics (C40).
File calls in a rack: a read of more than 8192 bytes fails an assertion in the client kernel, and a write of more than 8148 bytes or a long path overflows a message and panics it; the same calls on the controller return (C50).

Memory calls in a rack: map zeroes only what it gets from the controller, not the pages of the client's cache, which hold what another process left there; allocate_physical accepts any size, and registers a frame of that size though the controller supplied 2 MiB, so that a process reaches memory of another; a map call for 509 or more large pages has a reply that does not fit a message and stops the controller, and the client never gets an answer; a map call for nothing or for a range in use panics the client (C51).

Reference address space: map of a larger frame over a mapping of its first page is accepted by both, but only the reference then resolves the new addresses; the project's random test can produce this history but rarely will (C52).

C memory functions: `realloc` to a smaller size class keeps the block in place but records the new size, so a later `free` clears a slot that belongs to another block (which is then handed out twice) or panics; `posix_memalign` adds the 16 byte header after aligning, so no result is aligned to more than 16; `calloc` and `malloc` do not check for overflow; `realloc` stores its header through the null pointer when memory is out (C53).

TCP transport: a receive that reports too little room has consumed the header but not the payload, so the next receive interprets payload bytes, chosen by the other machine, as a header (over shared memory the same situation panics, C28); send_msg returns before anything is transmitted, and try_recv_msg does not poll, so a server that only uses try_handle depends on another thread to poll the interface (C54).

RPC over TCP: the limits differ from shared memory. A request of 8193 to 65534 bytes is sent and makes the server's receive fail with the payload left in the stream; a reply larger than the caller's buffers makes the call fail the same way (C55_after_error_refuted: the next call returns at once with bytes of the old reply). Over shared memory both panic (C29).

Transmit queue: `enqueue` does not check chains. An empty one is accepted, marks a stale descriptor as valid and puts card and driver out of step (C56_empty_refuted: the next packet is never sent); lengths are cut to 14 bits (C56_length_refuted: 16385 bytes become 1, 0 bytes become 16384); more than 32 segments hit an assert although can_enqueue says yes (C56_segments_refuted). `flush` compares ring positions, so if the ring went round since the last flush it does not ring the doorbell (C56_flush_refuted).

Receive queue: `len` is the distance of the head of the command ring and the tail of the completion ring, two different rings (a chain takes two descriptors, a packet mostly one completion). So it accepts chains over ones the card still owns, after which every packet is lost (C57_overflow_refuted, C57_full_refuted), and refuses a chain with one in the queue (C57_refuses_refuted; the network stack keeps one at a time, for which C57_single_partial proves this cannot happen). A zero-length completion is skipped without taking its chain out (C57_empty_refuted: the next packet comes back in the wrong buffers).

C58: `map_generic` of the bootloader checks only the first 2 MiB or 1 GiB entry for presence; later entries of the run are overwritten silently (vspace.rs:192-208, 260-276). `MapAction::*User` never gives user access: intermediate tables are linked with P|RW only (vspace.rs:455-468).

C59: bootloader/src/kernel.rs:127-149 has the `all-writable` tables the wrong way round, and the feature is not declared in Cargo.toml, so kernel text and read-only data are always mapped writable; `make_readonly` is a no-op (:254-273). An image whose lowest segment is not in page 0 is mapped and written `min_base` bytes above the allocated chunk (:165-178). Two segments on one 4 KiB page panic.

C60: main.rs:173 compares with `>=`, so a region that ends exactly at 0xfee00000 is taken to cover the APIC and is not mapped at all; a region starting at 0 is dropped whole; only six types are mapped in kernel space although main.rs:32 says all; the stack guard page is mapped readable (main.rs:399-404), and writable through the 1:1 mapping.

C61: is_shmem_addr and get_shmem_index_by_addr use `<=` for the end of a region (shmem.rs:454, 462, 483), so with adjacent devices the first address of machine 1's memory is attributed to machine 0, and own memory right behind a device is leaked on free; Shmem::new sorts by device number only and ignores the bus; ShmemAllocator ignores alignment, and a lost or spuriously failing compare_exchange ends in handle_alloc_error although memory is available (allocator.rs:28-49).

C62: the handler of the doorbell interrupt takes one request off the queue (irq.rs:772-789). Two machines that ring before it runs raise one interrupt, so the second request stays in the queue and its caller spins forever (`C62_merged_doorbells_refuted`), unless a core of that machine happens to start a shootdown of its own. A full queue panics (`C62_full_queue_refuted`).

C63: RL_MASK_PARKED and RL_MASK_UNPARK are both 1 (prt/mod.rs:26-27), so _lwp_unpark cannot tell a waiting thread from one that was already unparked. A second unpark makes the thread runnable although it runs: a later park returns without an unpark (`C63_stray_return_refuted`), a wait for a lock ends early (`C63_others_disturbed_refuted`), and a thread that exits reaches unreachable!() (`C63_exit_refuted`). rl_thread is 0 until the creator assigns it after the new thread has started (:208): an unpark before that wakes thread 0 and is lost (`C63_spawn_race_refuted`). A timed park panics (:344).

C64: argv of a C program is reversed (rsplit) and an empty appcmd becomes one empty argument; mode='client' in quotes is dropped silently; init=/bin is lexed as a kernel name and the next word becomes the value; initargs=log reads no value; workers=300 becomes 1 without an error.

C65: the kernel does not copy information that does not fit the program's buffer but still returns its length, and process_info uses 256 bytes: with 170 bytes of init and application arguments every program panics at start (`C65_long_command_line_refuted`). The controller answers get_hardware_threads from an 8192-byte buffer, enough for 203 threads, although it admits 16 machines with 192 threads each: a rack of two machines with 102 threads each registers, and the first program that asks panics the controller (`C65_rack_many_threads_refuted`).

C66: condition variables. signal and broadcast touch the list of waiters without a lock, so two signals sent without the mutex (which pthread allows, and the debug assertion lets pass when the mutex is free) can wake the same waiter and lose the other (condvar.rs:216). timed_wait leaves a thread in the list after its timer went off until it has the mutex again, so it swallows a signal meant for another (:185-192). A signal that comes before the suspension of timed_wait leaves the timer in the list (scheduler.rs:277), and the entry it later puts into the run queue ends whatever the thread then waits for.

C67: kernel debugger. fs is always read as 0 (single_thread_ops.rs:39-101, single register access is off), so any change of a register from gdb sets the thread pointer of the kernel to 0. The x87 registers are shown as the first ten bytes, most significant first, of 16 (lib/kpi/src/x86_64.rs:172-190), and writes to them are dropped. A watchpoint for reads stops at writes too, one of 16 bytes watches 8, an unaligned one misses bytes, and all are accepted. remove_hw_watchpoint ignores the kind, so it removes another watchpoint at that address. determine_stop_reason takes the first bit of dr6, which the processor may also set for a disabled register: a hit is then reported as nothing. A write that fails has stored the bytes before the page that may not be written.

C68: thread-local storage. The linker rounds the size of the template up to its alignment when it computes variable offsets; new_tls_area (tls2/mod.rs:120-141) and new (tls.rs:133-170) place the control block right after the unrounded memsz that the loader reports. With a size of 9 and alignment 8 each variable is read 7 bytes before the place it was initialised at, so the first is outside of the block. The kernel asserts a size that is a multiple of 8, so panics at boot for others, and accepts 24 bytes aligned to 16, with which it has the same fault. The control block of a user thread is at block + size, with no padding (tls2/nrk.rs:32-56), so need not be aligned. Blocks of finished threads are not freed (threads.rs:117-119), and the result of alloc_zeroed is not checked.

C69: entering and leaving the kernel. lib/kpi/src/syscalls/macros.rs declares rdi and rsi as inputs only in the wrappers with one or two results, but syscall_handle (syscall.rs:526-533) writes both on success, so the compiler may go on with wrong values. A debug exception returns with sysret (irq.rs, kcb_resume_handle), which loses rcx, r11 and the flags; when it hit the kernel itself, kernel code goes on in ring 3. With a debugger connected, vector 35 returns with the kernel selectors, so the interrupted program runs in ring 0; all gates have DPL 3, so int 35 does it. Any fault of a program, or int n of vectors 0, 2, 4-7, 9-13, 16, 17, 19, 20, 30, shuts down the machine. A write to a mapped read-only page is answered like a fault that has been resolved, so the program repeats it for ever. XMM registers and MXCSR are not reset for new programs, and a new core of a program starts with fs and gs of the kernel.

C70: upcalls. While upcalls are disabled the kernel only sets is_disabled and resumes the code with sysret (irq.rs, process.rs): the interrupt is forgotten, and rcx, r11 and the flags of the code it hit are lost. When this happens inside resume (lib/vibrio/src/upcalls.rs), which has already cleared is_disabled, nothing clears it again: the program never gets an interrupt after that. usr/init sets no pc_disabled for resume, so there the second interrupt overwrites enabled_state and the program is lost. A device interrupt on a core without a process panics (unwrap in irq.rs). The handler runs with the fs base of the kernel (TODO in process.rs).

C71: drivers. PADDR_CACHE (dev.rs:20, 223-242) is never invalidated, so after unmapping and mapping a page again a driver gives the device the address of the old frame. rumpcomp_pci_dmalloc ignores the alignment argument and dmafree does nothing. CONFSPACE_LOCK is a static of each program while the ports are shared, so two programs can mix up their accesses. rumpcomp_pci_irq_map and irq_establish only use IRQS[0] (dev.rs:130-132, 187-188): with a second device the first handler is lost, and an interrupt between the two calls panics (unwrap in irq_handler). Irq::irqalloc asserts on results that are only set on success (lib/kpi/src/syscalls/io.rs:29-30). ioapic_establish_route ignores line and core: everything below 16 but inputs 1 and 2 goes to core 0.

C72: starting cores. The loop `while start.elapsed().as_millis() > 10 {}` between INIT and STARTUP (coreboot.rs:283) has its condition the wrong way round and never waits. start_ap.S loads the page table with a 32 bit mov (53-54), so a page table above 4 GiB is cut. OwnedStack::new (stack.rs:121-131) makes a stack out of a null pointer when memory is out; with two cores both get [0, 2 MiB). The loop waiting for a core looks at the flag and then at the clock, so it can panic with the flag set; any core that does not come up within two seconds stops the whole system. Node numbers are used as indices, so gaps in them panic.

C73: PCI devices. The table has 24 places and the push panics on the 25th device. claim_devices locks one device at a time, so two racing callers can split the devices of a kind between them.

C74: virtual CPUs. Condition variables release and retake a spin mutex outside of the library OS, so a thread that spins for the mutex with the only virtual CPU and the thread that has the mutex and waits for a virtual CPU block each other; a mutex made with neither the spin nor the kernel flag fails an assertion in enter and in cv_wait.

C75: start of a rack. ReleaseCore is dispatched to the handler of RequestCore (controller.rs:214), so giving back a core asks for one. The controller waits for a count to be equal to the number of clients: with one controller core more than clients, the count can go past it and the rack never starts.

C76: files of the library OS. RUMPUSER_OPEN_RDONLY is 0 and always 'contained', so write-only files are opened for reading too; RUMPUSER_OPEN_EXCL is ignored; a read with offset -1 (at the position) always fails while a write works; more than one buffer is an assertion failure; an empty buffer gives EINVAL.

C77: console. buffered_print looks for the first newline, so later complete lines of the same text stay in the buffer; exit does not flush the buffer; buffered_print_and_return overwrites its result when the rest does not fit, so the controller misses the first line; the buffer of an empty String has address 1, which the kernel refuses, and the expect of the writer stops the program; rumpuser_putchar encodes single bytes as characters, so UTF-8 text is garbled.

C78: boot volumes. load_modules makes 32 rounds over directory entries, so directories and skipped files count and later programs are missed without a message; an entry whose name does not fit the 256-byte buffer is read again in all remaining rounds and hides the files after it; a name with a surrogate pair is opened without it and the expect stops the boot; the files of several volumes are pushed into an array of 32, which panics; make_process takes the last module of a name and Process::load the first, so with two volumes the writable sections and the rest come from different files; likewise the last kernel is started and the first is used for symbols.

C79: rumpuser calls. rumpuser_getrandom reports one byte too few when the random number instruction fails (mod.rs:216 subtracts 1 from an index that is already the count); rumpuser_getparam stops the program when the buffer is too small; _RUMPUSER_NCPU reads the whole command line as one number and silently falls back to 1; the wall clock drops the part of the start time below a second.

C80: services for the ACPI interpreter. AcpiOsReadPciConfiguration always reads at 0xcfc, so a byte or word read at a register that is no multiple of four returns the wrong bytes (acpi.rs:411-425); its assertion stops the kernel for registers 0xfd to 0xff; AcpiOsGetRootPointer never falls back to the ACPI 1.0 pointer, since the 2.0 pointer is 0 and not absent.

C81: try_refill_shmem. On the controller with its own memory, missing base pages add a large page to the core's cache and then ask the scheduler for machine 0, which its assertion forbids (mod.rs:380-412); an error leaves the core's affinity at the local node (:406-423); a client asks for memory of its own machine whatever affinity it refills (get_shmem_frames.rs:46-50), so base pages of the wrong machine enter the cache and large ones fail an assertion; needing nothing stops a client.

C82: reinit_shared_data tells the card the number of receive queues as that of transmit queues and the other way round (vmx.rs:336-337), so with different numbers the card takes a receive record for a transmit one; the event interrupt is nrxqsets although there are nrxqsets + ntxqsets + 1 vectors and it is meant to be the last (vmx.rs:195-196).
