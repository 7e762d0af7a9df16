{"id": "C01", "title": "File contents behave like a growable byte array", "statement": "After any sequence of writes and truncations on a regular file, a read of n bytes at offset o returns exactly the bytes most recently written to each position in [o, min(o+n, size)), with zeros in any gap that was skipped over by a write past the end, and the reported size is the largest end offset written since the last truncation.", "quantifier": "all sequences of write(offset, bytes) / truncate / read(offset, n) operations, all offsets and lengths (any relation to the 4 KiB buffer size)", "why_tests_cant": "the bytes are spread over a list of 4 KiB buffers with three different growth paths; only a proof over all operation histories covers every alignment of offset, length, and previous size", "anchors": ["kernel/src/fs/file.rs: File::{write_file,read_file,get_size,increase_file_size,file_truncate,offset_to_buffernum}"]}
{"id": "C02", "title": "Positional writes touch only their own range", "statement": "write_at(off, data) returns the length of data, leaves every byte outside [off, off+len) that was inside the file unchanged, never shrinks the file, and zero-fills only positions between the old end and off.", "quantifier": "all file states reachable by writes/truncates, all offsets and data", "why_tests_cant": "unintended clobbering may need one particular alignment of old size, offset and length", "anchors": ["kernel/src/fs/file.rs: File::write_file, increase_file_size"]}
{"id": "C03", "title": "File permissions are enforced and failing operations change nothing", "statement": "Reading needs a readable mode and writing or truncating a writable mode; a directory can be neither read nor written; an operation that returns an error leaves the file system's files, names and sizes unchanged.", "quantifier": "all nodes, modes, offsets, data, and file system states", "why_tests_cant": "an error path that mutates before it fails is only visible on particular state/argument combinations", "anchors": ["kernel/src/fs/mnode.rs: MemNode::{write,read,file_truncate}", "kernel/src/fs/mod.rs: MlnrFS"]}
{"id": "C04", "title": "File descriptors are fresh, minimal, and independent", "statement": "Opening returns the smallest descriptor number below 4096 that is not open in the calling process (or an error, changing nothing, when all 4096 are open); closing invalidates exactly that descriptor; no operation on one descriptor changes what another descriptor refers to or its cursor; descriptors of one process are never affected by another process.", "quantifier": "all histories of open/close over all processes", "why_tests_cant": "collision or leakage needs long histories of interleaved opens/closes", "anchors": ["kernel/src/fs/fd.rs: FileDescriptorTable", "kernel/src/fs/cnrfs.rs: dispatch_mut FileOpen/FileClose"]}
{"id": "C05", "title": "open() honours O_CREAT and O_TRUNC and never leaks a descriptor", "statement": "open(path, flags, modes): if the path exists the new descriptor refers to it and, with O_TRUNC, the file is emptied; if it does not exist it is created empty with the given modes iff O_CREAT is set; on every error outcome the process's open descriptors are exactly those before the call.", "quantifier": "all file system states, paths, flags, modes", "why_tests_cant": "descriptor leaks on error paths need exhaustive path coverage over states", "anchors": ["kernel/src/fs/cnrfs.rs: dispatch_mut FileOpen"]}
{"id": "C06", "title": "Cursor semantics of read/write versus read_at/write_at", "statement": "A cursor-based read or write starts at the descriptor's cursor (append-mode writes at end of file) and advances the cursor by exactly the number of bytes transferred; positional operations never move the cursor. Consecutive cursor writes followed by one read from the start return the concatenation of the written data.", "quantifier": "all descriptors, file states, data, and operation sequences", "why_tests_cant": "the interaction of cursor, append flag, and positional access spans unbounded histories", "anchors": ["kernel/src/fs/cnrfs.rs: dispatch FileRead, dispatch_mut FileWrite", "kernel/src/fs/fd.rs: FileDescriptorEntry"]}
{"id": "C07", "title": "The name space maps every path to at most one file, and identities are never reused", "statement": "Every create/mkdir assigns a node identity never used before; distinct paths name distinct nodes; creating an existing path fails with AlreadyPresent and changes nothing; looking up a path returns the node it was last bound to.", "quantifier": "all sequences of create/mkdir/delete/rename/open", "why_tests_cant": "aliasing between names only shows up under specific histories of renames and deletes", "anchors": ["kernel/src/fs/mod.rs: MlnrFS::{create,mkdir,delete,rename,lookup,get_next_mno}"]}
{"id": "C08", "title": "rename moves a file and disturbs nothing else", "statement": "For old != new, a successful rename(old,new) makes `new` refer to the node (contents and modes) that `old` referred to, removes `old`, drops whatever `new` named before, and leaves every other path and file contents unchanged; renaming a missing path fails with no change. (rename(p,p) is expected to be a no-op.)", "quantifier": "all file systems states and all pairs of paths", "why_tests_cant": "the overlapping cases (old = new, new already exists) are state dependent", "anchors": ["kernel/src/fs/mod.rs: MlnrFS::rename"]}
{"id": "C09", "title": "Replicas of the file system agree whatever order independent logs are consumed in", "statement": "Mutating operations are distributed over several logs; a replica may consume different logs at different speeds as long as each log is consumed in order and operations that enter all logs act as barriers. Any two replicas that consumed the same operations end up with the same files, names, descriptors and cursors, and hence answer every later request alike.", "quantifier": "all operation histories, numbers of logs, and legal consumption orders", "why_tests_cant": "divergence needs particular interleavings of log consumption, which tests cannot enumerate", "anchors": ["kernel/src/fs/cnrfs.rs: LogMapper for Modify/Access, Dispatch for MlnrKernelNode"]}
{"id": "C10", "title": "File system requests never crash the kernel", "statement": "A file system request issued by a registered process with arbitrary arguments is answered with Ok or an error value; it never reaches a panic.", "quantifier": "all reachable file system states, all requests", "why_tests_cant": "panic sites (`unreachable!`, `unwrap`, `expect`) are reachable only by specific histories such as delete-while-open followed by append", "anchors": ["kernel/src/fs/cnrfs.rs: dispatch, dispatch_mut", "kernel/src/fs/mod.rs: MlnrFS::file_info, rename"]}
{"id": "C11", "title": "The kernel's distributed reader-writer lock excludes writers from readers and from each other", "statement": "At no point of any execution does one thread hold the lock for writing while another thread holds it for reading or writing, provided every reader slot index is below the number of slots the writer inspects.", "quantifier": "all numbers of threads, all interleavings of atomic steps of lock/unlock operations", "why_tests_cant": "schedules are unbounded; a bad interleaving of the two-phase reader protocol is practically invisible to tests", "anchors": ["kernel/src/fs/rwlock.rs: RwLock::{read,write,read_unlock,write_unlock}"]}
{"id": "C12", "title": "Splitting physical frames conserves memory", "statement": "Splitting a frame at a page-multiple size, at the next 2 MiB boundary, or iterating it page by page yields page-aligned, pairwise disjoint frames of the same affinity whose union is exactly the original frame.", "quantifier": "all page-aligned frames and split sizes", "why_tests_cant": "needs all bases/sizes incl. boundary alignments", "anchors": ["kernel/src/memory/frame.rs: Frame::{split_at,split_at_nearest_large_page_boundary}, IntoBasePageIter"]}
{"id": "C13", "title": "Page caches never hand out a page twice and lose none silently", "statement": "Starting from an empty cache, over any history of populate, grow, allocate, release and reap in which callers only return pages they own, the pages in the cache and the pages held by callers are pairwise disjoint, every page handed out is aligned to its size, carries the cache's affinity and lies in memory that was put into the cache, and failing operations change nothing.", "quantifier": "all operation histories, all cache capacities", "why_tests_cant": "double allocation is a history property", "anchors": ["kernel/src/memory/mcache.rs: MCache::{populate,allocate_base_page,allocate_large_page,release_base_page,release_large_page,grow_*,reap_*}"]}
{"id": "C14", "title": "The emergency (bump) allocator returns disjoint, sufficiently large page-aligned blocks", "statement": "All blocks returned by the emergency allocator between refills are pairwise disjoint, inside the region, page aligned and at least as large as requested; when the region cannot satisfy a request it reports exhaustion and changes nothing.", "quantifier": "all request sequences and region sizes", "why_tests_cant": "history property over unbounded request sequences", "anchors": ["kernel/src/memory/emem.rs: EmergencyAllocator::allocate_layout"]}
{"id": "C15", "title": "Rounding a byte size to pages covers the request minimally", "statement": "The numbers of large and base pages computed for a mapping request cover at least the requested bytes, by less than one base page more, and use as many large pages as fit.", "quantifier": "all sizes", "why_tests_cant": "arithmetic boundary property over all sizes", "anchors": ["kernel/src/memory/utils.rs: size_to_pages"]}
{"id": "C16", "title": "Replicas that allocate through the deterministic allocator see the same outcomes", "statement": "For every sequence of allocation requests executed identically on all replicas, and every interleaving of the replicas' progress, the k-th allocation succeeds on all replicas or fails on all of them, each replica receives the block reserved for it for that allocation and layout, and no block is handed out twice.", "quantifier": "all numbers of replicas, request sequences, interleavings, and outcomes of the backing allocator", "why_tests_cant": "depends on replica interleavings and on backing allocator failures", "anchors": ["kernel/src/memory/detmem.rs: DeterministicAlloc::{alloc,dealloc}"]}
{"id": "C17", "title": "Mapping a frame makes exactly that range resolve to it", "statement": "After a successful map of a frame of n bytes at virtual base v with given rights, resolving v+i for every i<n yields physical frame base + i with these rights, and resolving any address outside [v,v+n) gives the same answer as before the call.", "quantifier": "all page-table states reachable by map/unmap/adjust, all aligned bases, frame sizes and rights", "why_tests_cant": "four-level page table with three page sizes; corner cases at level boundaries are too many to enumerate", "anchors": ["kernel/src/arch/x86_64/vspace/page_table.rs: PageTable::{map_frame,map_generic,insert_*,resolve}"]}
{"id": "C18", "title": "A conflicting mapping is refused without side effects on translations", "statement": "Mapping a frame over a range where some page is already mapped (other than an exact repetition) returns an AlreadyMapped error and no address changes its translation.", "quantifier": "all states and arguments", "why_tests_cant": "requires checking all partial overlap shapes across page sizes", "anchors": ["kernel/src/arch/x86_64/vspace/page_table.rs: map_generic, can_map_as_*"]}
{"id": "C19", "title": "Unmapping removes exactly one mapping", "statement": "unmap(v) of an address covered by a mapping of one page (4 KiB, 2 MiB or 1 GiB) makes precisely that page's addresses unresolvable, leaves all other translations unchanged, and reports the removed range; unmapping an unmapped address fails and changes nothing.", "quantifier": "all reachable page tables and addresses", "why_tests_cant": "state dependent frame condition", "anchors": ["kernel/src/arch/x86_64/vspace/page_table.rs: unmap, modify_generic"]}
{"id": "C20", "title": "Adjusting rights changes rights and nothing else", "statement": "adjust(v, rights) on a mapped page keeps its physical target and replaces its rights, for all addresses in that page and for no other address.", "quantifier": "all reachable page tables, addresses, and rights", "why_tests_cant": "state dependent frame condition", "anchors": ["kernel/src/arch/x86_64/vspace/page_table.rs: adjust, modify_generic"]}
{"id": "C21", "title": "Bookkeeping of an address space agrees with its page table", "statement": "For address spaces built from page-sized frames, the recorded mappings are exactly what the page table translates: every recorded mapping resolves, every resolving address belongs to a recorded mapping, after any history of map, unmap and adjust.", "quantifier": "all operation histories on an address space", "why_tests_cant": "the two structures can drift apart only after particular histories", "anchors": ["kernel/src/arch/x86_64/vspace/mod.rs: VSpace::{map_frame,unmap,adjust,resolve}"]}
{"id": "C22", "title": "Requested rights are what the hardware entry grants", "statement": "Translating access rights into page-table flags at any level and reading them back gives the same present/write/execute/user permissions; no combination grants a permission that was not requested.", "quantifier": "all combinations of rights, all three page sizes", "why_tests_cant": "security property over the full table, incl. combinations not used in tests", "anchors": ["kernel/src/arch/x86_64/vspace/mod.rs: MapAction to_*_rights, From<*Flags> for MapAction", "kernel/src/memory/vspace.rs: MapAction"]}
{"id": "C23", "title": "User pointers are confined to user space", "statement": "A user slice is only constructed if it lies entirely in [4096, kernel base) without wrap-around and with bounded length; accessing it for reading succeeds only if every page it touches is mapped user-accessible in the process; sub-slices stay within the slice.", "quantifier": "all addresses, lengths, and address-space contents", "why_tests_cant": "attackers choose the inputs; wrap-around and page-boundary cases must all be rejected", "anchors": ["kernel/src/process.rs: UVAddr, UserSlice::{new,is_accessible,with_slice,with_slice_mut,subslice}"]}
{"id": "C24", "title": "Process ids are unique while in use", "statement": "A newly allocated process id is the smallest id not in use and below the maximum; ids in use are never handed out again until freed; allocation fails exactly when all are in use; freeing an unused id fails and changes nothing.", "quantifier": "all histories of process creation/destruction", "why_tests_cant": "history property", "anchors": ["kernel/src/nr.rs: KernelNode dispatch_mut AllocatePid/FreePid"]}
{"id": "C25", "title": "A core runs for at most one process and only its owner can release it", "statement": "After any history, every core is assigned to at most one process; allocating an assigned core fails; releasing succeeds only for the owning process and frees exactly that core; queries report the current owner and its entry point.", "quantifier": "all histories of allocate/release", "why_tests_cant": "history property", "anchors": ["kernel/src/nr.rs: KernelNode dispatch_mut SchedAllocateCore/SchedReleaseCore, dispatch CurrentProcess"]}
{"id": "C26", "title": "A physical frame registered with a process is not released while mapped", "statement": "Frame ids given to a process are distinct and stable; looking up an id returns the frame registered under it; a frame can be deregistered only if its number of live mappings is zero; deregistering removes exactly that frame.", "quantifier": "all histories of allocate/map/unmap/release frame operations", "why_tests_cant": "reference counting errors need specific histories (failed maps, double maps)", "anchors": ["kernel/src/process.rs: ProcessFrames", "kernel/src/nrproc.rs: dispatch_mut MemMapFrameId/MemUnmap/ReleaseFrameFromProcess"]}
{"id": "C27", "title": "The kernel's work queue is a bounded FIFO without loss or duplication", "statement": "For any number of producers and consumers and any interleaving, every item successfully pushed is popped at most once, pops return only pushed items, and items claimed in order of their slots come out in that order; the number of claimed-but-unpopped items never exceeds the capacity.", "quantifier": "all thread counts, capacities, and interleavings of atomic steps", "why_tests_cant": "lock-free algorithm; interleavings are unbounded", "anchors": ["kernel/src/mpmc.rs: Queue::{with_capacity,push,pop}"]}
{"id": "C28", "title": "Messages through the shared-memory RPC queue arrive intact", "statement": "A message gathered from several slices and pushed is delivered byte-for-byte to the receiver's slices in order, filling each slice before the next; the reported length is the message length; buffers beyond the message are untouched.", "quantifier": "all slice splits on both sides with total size within limits", "why_tests_cant": "arbitrary scatter/gather shapes", "anchors": ["lib/rpc/src/transport/shmem/queue_mpmc.rs: State::{push,pop}", "lib/rpc/src/transport/shmem/transport.rs"]}
{"id": "C29", "title": "An RPC call returns the reply produced for that call", "statement": "With one client and one server on a pair of ordered channels, the reply received by a call is the reply computed by the handler registered for its type from its payload; registering a type twice is refused; a request with unregistered type is not answered with another handler's reply.", "quantifier": "all handler tables and sequences of calls", "why_tests_cant": "history property over message sequences", "anchors": ["lib/rpc/src/client.rs: Client::call", "lib/rpc/src/server.rs: Server::{register,handle,try_handle}"]}
{"id": "C30", "title": "TLB shootdown reaches every core that may cache the translation", "statement": "For every set of cores to be notified, each of them is covered by some interrupt that is actually sent, and the initiator continues only after each of them acknowledged.", "quantifier": "all core sets, topologies with APIC ids, and delivery/acknowledgement orders", "why_tests_cant": "depends on cluster structure and on schedules", "anchors": ["kernel/src/arch/x86_64/tlb.rs: shootdown, Shootdown::{new,acknowledge,process}"]}
{"id": "C31", "title": "Core sets round-trip through the bitmap", "statement": "Inserting any set of core ids below 256 into the core bitmap and iterating it yields exactly these ids, in increasing order, each once; clearing a bit removes just this id.", "quantifier": "all sets of core ids", "why_tests_cant": "2^256 sets", "anchors": ["kernel/src/memory/vspace.rs: CoreBitMap, CoreBitMapIter"]}
{"id": "C32", "title": "System call numbers are decoded faithfully", "statement": "Each documented operation code decodes to its operation and every other 64-bit value is rejected with an error; two different codes never decode to the same accepted operation; rejected calls have no effect.", "quantifier": "all 64-bit opcode values at both levels", "why_tests_cant": "2^64 inputs per level", "anchors": ["lib/kpi/src/lib.rs: *Operation::new, SystemCall::new", "kernel/src/syscalls.rs: *OperationArgs::validate, handle"]}
{"id": "C33", "title": "Global thread ids identify machine and local thread uniquely", "statement": "Composing a global thread id from a machine id and a machine-local thread id below 2^32 and decomposing it gives both back, so different (machine, thread) pairs have different ids; the user-level core index derived from it is injective on valid cores and below the maximum number of cores.", "quantifier": "all machine and thread ids within the supported ranges", "why_tests_cant": "arithmetic over the full range", "anchors": ["lib/kpi/src/system.rs: new_gtid, mtid_from_gtid, mid_from_gtid", "lib/lineup/src/lib.rs: core_id_to_index"]}
{"id": "C34", "title": "User-level mutex: mutual exclusion and no lost waiter", "statement": "At most one thread holds a mutex; a thread that blocks is queued and is woken by the exit that hands the mutex to it, in FIFO order; exit by the last holder leaves the mutex free.", "quantifier": "all thread counts (within the wait list capacity) and interleavings", "why_tests_cant": "interleavings", "anchors": ["lib/lineup/src/mutex.rs: MutexInner::{try_enter,enter,exit}"]}
{"id": "C35", "title": "User-level reader-writer lock: exclusion incl. upgrade and downgrade", "statement": "A writer excludes all other holders; readers may share; a successful upgrade makes the caller the sole holder; a downgrade turns the writer into a reader without admitting a writer in between.", "quantifier": "all thread counts and interleavings of atomic steps", "why_tests_cant": "interleavings", "anchors": ["lib/lineup/src/rwlock.rs: RwLockInner::{enter,try_enter,exit,downgrade,try_upgrade}"]}
{"id": "C36", "title": "User-level semaphore admits no more threads than permits", "statement": "The number of completed down operations never exceeds the initial count plus the number of completed up operations, and permits are not lost: if permits remain, a down does not block.", "quantifier": "all histories of up/down by any number of threads", "why_tests_cant": "history/schedule property", "anchors": ["lib/lineup/src/semaphore.rs: Semaphore::{up,down}"]}
{"id": "C37", "title": "User-level scheduler bookkeeping", "statement": "Thread ids are never reused; a sleeping thread is made runnable only once its wake-up time has passed and in order of wake-up times; a thread waiting in join is made runnable when its target exits; threads are dispatched in FIFO order of becoming runnable.", "quantifier": "all sequences of thread requests and clock values", "why_tests_cant": "unbounded histories", "anchors": ["lib/lineup/src/scheduler.rs: SmpScheduler::{spawn,handle_yield_request,waitlist_insert,check_wakeups,mark_runnable,mark_unrunnable}"]}
{"id": "C38", "title": "The user heap's page ranges never overlap", "statement": "All virtual ranges requested by the per-core pagers of one process are pairwise disjoint, over all histories of requests on all cores, as long as no pager's last request crosses its limit.", "quantifier": "all request histories, sizes, alignments, and cores", "why_tests_cant": "history property; boundary at the per-core limit", "anchors": ["lib/vibrio/src/mem.rs: Pager::allocate, PAGER"]}
{"id": "C39", "title": "Assignments from the cluster scheduler are recorded faithfully", "statement": "A request for n resources returns, for each of the n allocation ids, exactly the node the external scheduler assigned to that id, however its notifications interleave with the request.", "quantifier": "all n, all arrival orders of notifications", "why_tests_cant": "race between notification and registration", "anchors": ["kernel/src/arch/x86_64/rackscale/dcm/resource_alloc.rs: dcm_resource_alloc", "kernel/src/arch/x86_64/rackscale/dcm/mod.rs: handle_dcm_node_assignment"]}
{"id": "C40", "title": "A hardware thread is claimed by at most one requester", "statement": "Claiming a free hardware thread of a machine returns a thread of this machine that is registered and was not claimed before; claims fail exactly when none is free.", "quantifier": "all histories of registrations and claims", "why_tests_cant": "history property", "anchors": ["kernel/src/arch/x86_64/rackscale/controller_state.rs: ThreadMap, ControllerState::claim_hardware_thread"]}
{"id": "C41", "title": "A dispatcher (executor) region belongs to one executor only", "statement": "Carving a memory region into executors yields per-executor control blocks and stacks that are pairwise disjoint, inside the region, properly aligned, and executor ids are never reused; asking for an executor returns one that was not handed out before.", "quantifier": "all region sizes and allocation histories", "why_tests_cant": "history and arithmetic property", "anchors": ["kernel/src/arch/x86_64/process.rs: Ring3Process::allocate_executors, get_executor, Ring3Executor::new"]}
{"id": "C42", "title": "Loading a program image places every byte where the program headers say", "statement": "After loading, each byte of each loadable segment is found at its virtual address plus the load offset, zero-initialised parts are zero, and relocations change only the addressed words.", "quantifier": "all sequences of loadable program headers satisfying the loader's layout assumptions", "why_tests_cant": "arbitrary segment layouts", "anchors": ["kernel/src/arch/x86_64/process.rs: ElfLoader for Ring3Process", "kernel/src/process.rs: DataSecAllocator"]}
{"id": "C43", "title": "Memory system calls change exactly the requested range", "statement": "Mapping memory makes exactly the requested range, rounded up to pages, readable and writable and backed by fresh pages, and reports its size; a request that is malformed or overlaps memory in use is refused with an error and changes nothing; unmapping removes exactly the page that contains the address or fails and changes nothing; mapping a physical frame by id gives access to that frame; releasing a frame returns exactly that frame; identify reports the translation in force.", "quantifier": "all address spaces reachable by these calls, all addresses, sizes and outcomes of memory allocation", "why_tests_cant": "the effect on every other address, for all sizes and layouts", "anchors": ["kernel/src/arch/x86_64/syscall.rs: map_generic, unmap_generic, map_device, map_frame_id, identify, allocate_physical, release_physical", "kernel/src/nrproc.rs: NrProcess::{map_frames,unmap,map_frame_id,map_device_frame,resolve}"]}
{"id": "C44", "title": "Processes cannot reach each other's memory, free memory or the kernel's page tables", "statement": "Whatever system calls processes make, no two of them can access the same byte of physical memory, none can access free memory, and the kernel's part of the page table stays as it was; what a process reads at its addresses changes only by its own actions; memory it obtains does not contain what others wrote to it.", "quantifier": "all histories of memory system calls, stores and loads of any number of processes, all outcomes of memory allocation", "why_tests_cant": "a violation needs a particular combination of calls of several processes", "anchors": ["kernel/src/arch/x86_64/syscall.rs: map_generic, unmap_generic, map_device, map_frame_id, allocate_physical, release_physical", "kernel/src/nrproc.rs: NrProcess::dispatch_mut", "kernel/src/arch/x86_64/process.rs: Ring3Process::load (kernel mappings), allocate_executors"]}
{"id": "C45", "title": "Boot hands every byte of memory to at most one allocator, of the node it is on", "statement": "After boot, the boot core's early memory, the nodes' early memory, the pages holding the nodes' allocators and the nodes' allocators are disjoint and consist of memory the firmware reported as usable; every page in the allocators of a node is on that node according to the topology.", "quantifier": "all firmware memory maps and NUMA topologies without overlaps on which the kernel boots, with and without debug assertions", "why_tests_cant": "the splitting at 32 MiB, 2 MiB and node borders must be right for every layout of memory", "anchors": ["kernel/src/arch/x86_64/memory.rs: process_uefi_memory_regions, identify_numa_affinity", "kernel/src/memory/global.rs: GlobalMemory::new", "kernel/src/memory/mcache.rs: MCache::{new_with_frame,populate,populate_2m_first,populate_4k_first}"]}
{"id": "C46", "title": "Boot succeeds and makes all usable memory available under its node", "statement": "On every machine with enough memory boot succeeds, all memory the firmware reports as usable is then available from some allocator, and memory is labelled with the node it is on.", "quantifier": "all firmware memory maps and NUMA topologies without overlaps", "why_tests_cant": "losses depend on sizes and alignment of all regions", "anchors": ["kernel/src/arch/x86_64/memory.rs: process_uefi_memory_regions, identify_numa_affinity", "kernel/src/memory/global.rs: GlobalMemory::new", "kernel/src/memory/mcache.rs: FrameCacheLarge, FrameCacheSmall, FrameCacheEarly"]}
{"id": "C47", "title": "Blocks of the kernel heap never overlap and are not free memory", "statement": "At any time, every byte of every block in use translates to physical memory the heap was given, at an address aligned as requested, no two blocks (or bytes of one) share physical memory, and no cache of free pages contains memory of a block.", "quantifier": "all histories of allocations, frees, resizes and node selections on any number of cores, all sizes and alignments up to 2 MiB, all choices of the slab allocator", "why_tests_cant": "overlap needs a particular history of sizes, cores and refills", "anchors": ["kernel/src/memory/mod.rs: KernelAllocator::{try_alloc,try_refill,try_refill_tcache,maybe_refill_tcache,try_refill_zone}, GlobalAlloc::{alloc,dealloc,realloc}", "kernel/src/memory/per_core.rs: PerCoreMemory::{swap_manager,set_mem_affinity}"]}
{"id": "C48", "title": "Kernel memory comes from the selected node", "statement": "Every byte of a block is memory of the node selected on the core at the time of the allocation; free memory stays in caches of the node it belongs to; selecting a node takes effect if the node exists and otherwise fails without effect.", "quantifier": "all histories of allocations, frees, resizes and node selections on any number of cores", "why_tests_cant": "pages migrate through caches over long histories", "anchors": ["kernel/src/memory/mod.rs: KernelAllocator", "kernel/src/memory/per_core.rs: PerCoreMemory::{swap_manager,set_mem_affinity}"]}
{"id": "C49", "title": "The kernel heap serves requests while there is memory, and freed memory can be used again", "statement": "A request does not panic, and succeeds if the core or the selected node has the memory; freeing a block succeeds and makes its memory available.", "quantifier": "all histories of allocations, frees, resizes and node selections on any number of cores, all sizes", "why_tests_cant": "depends on how full every cache is after an arbitrary history", "anchors": ["kernel/src/memory/mod.rs: KernelAllocator, GlobalAlloc::{alloc,dealloc}", "kernel/src/memory/mcache.rs: FrameCacheSmall"]}
{"id": "C50", "title": "A file system call of a client machine of a rack is the same call on the controller", "statement": "Every open, read, write, close, stat, delete, rename and mkdir made on a client machine takes effect exactly once, between call and return, as that call made locally on the controller's file system, and returns exactly that call's result and bytes; calls of different machines never mix.", "quantifier": "all numbers of client machines, all histories and interleavings of calls, of the controller's threads and of replies, all arguments", "why_tests_cant": "results depend on the interleaving of all machines, on encodings and on stale bytes in reused buffers", "anchors": ["kernel/src/arch/x86_64/rackscale/fileops/*.rs: rpc_* and handle_*", "kernel/src/arch/x86_64/rackscale/kernelrpc.rs", "kernel/src/arch/x86_64/rackscale/controller.rs: run, register_rpcs", "kernel/src/fs/cnrfs.rs"]}
{"id": "C51", "title": "Processes in a rack get their own, zeroed memory", "statement": "Whatever machine a process runs on: no two processes ever reach the same byte of memory, no process reaches memory that the controller or a machine keeps as free, a call of one process never changes what another reads; a map call that succeeds maps exactly the pages of the request, zeroed, and one for unused addresses succeeds while there is memory and otherwise fails with an error.", "quantifier": "all numbers of machines and processes, all histories of map, unmap, allocate, release and memory accesses, all sizes and choices of the allocators", "why_tests_cant": "depends on what the machines' caches of pages hold after an arbitrary history of all machines", "anchors": ["kernel/src/arch/x86_64/rackscale/syscalls.rs: Arch86LwkSystemCall (map_mem)", "kernel/src/arch/x86_64/rackscale/get_shmem_frames.rs: rpc_get_shmem_frames, handle_get_shmem_frames", "kernel/src/arch/x86_64/rackscale/processops/allocate_physical.rs", "kernel/src/arch/x86_64/rackscale/processops/release_physical.rs", "kernel/src/memory/backends.rs"]}
{"id": "C52", "title": "Page tables answer every call as the reference address space does", "statement": "Any history of map, adjust, resolve and unmap calls gets from the hardware page tables the answers it gets from the simple reference address space that the project defines for this purpose; only the address named in a conflict may differ, as long as it is in conflict.", "quantifier": "all histories of the four calls, all addresses, frames and rights", "why_tests_cant": "the project compares the two on random histories of at most 512 calls in 6 MiB of addresses", "anchors": ["kernel/src/memory/vspace_model.rs: ModelAddressSpace", "kernel/src/arch/x86_64/vspace/mod.rs: VSpace", "kernel/src/arch/x86_64/vspace/test.rs: model_equivalence"]}
{"id": "C53", "title": "Memory from malloc, calloc, realloc and posix_memalign belongs to the caller until it is freed", "statement": "A block returned by one of the C memory functions has the requested size and alignment, lies in mapped memory and overlaps no other block in use; it keeps every byte stored in it until it is freed, calloc's blocks start as zeros and realloc keeps the common prefix; freeing a block works and makes its place available; a request that cannot be met returns NULL.", "quantifier": "all histories of the functions and of stores, on all cores, all sizes and alignments, all choices of the slab allocator and answers of the kernel", "why_tests_cant": "depends on size classes and headers after an arbitrary history on several cores", "anchors": ["lib/vibrio/src/rumprt/crt/mem.rs: posix_memalign, malloc, calloc, free, realloc", "lib/vibrio/src/mem.rs: SafeZoneAllocator, PerCoreAllocator, Pager"]}
{"id": "C54", "title": "Messages over a TCP connection arrive whole, in order and exactly once", "statement": "What send_msg and try_send_msg put into a connection comes out of recv_msg and try_recv_msg at the other end as the same messages in the same order: the header, and the payload in the receiver's buffers in order with the rest of the buffers unchanged, however TCP cuts the stream and however payload and buffers are sliced. A try that fails has sent or received nothing. While both ends are polled a receive waits only if every message sent has been received, and a send waits only for a receiver.", "quantifier": "all sequences of messages, slices and buffers, all sizes of the socket's buffers, all ways to cut the byte stream, all interleavings of the two ends", "why_tests_cant": "depends on where segments are cut and on how the ends interleave", "anchors": ["lib/rpc/src/transport/smoltcp.rs: TCPTransport::{send,recv,recv_msg}, Transport for TCPTransport", "lib/rpc/src/rpc.rs: RPCHeader"]}
{"id": "C55", "title": "A remote procedure call over TCP runs the handler once and returns its reply", "statement": "Over a TCP connection, each call runs the handler registered for its type exactly once, on exactly the bytes sent, in the order of the calls, and returns exactly the bytes the handler replied with, in the caller's buffers with the rest unchanged; when handlers reply and the server keeps serving, every call returns. A poll of the server that finds nothing changes nothing.", "quantifier": "all handlers and handler states, all calls and buffers, all sizes of the socket's buffers, all ways to cut the byte streams, all interleavings of client, server and network", "why_tests_cant": "depends on where segments of both directions are cut and on how client and server interleave", "anchors": ["lib/rpc/src/client.rs: Client::call", "lib/rpc/src/server.rs: Server::{handle,try_handle,receive,try_receive,reply}", "lib/rpc/src/transport/smoltcp.rs: TCPTransport"]}
{"id": "C56", "title": "The network card sends the packets it was given, in order, and gives their buffers back", "statement": "A chain of buffers that the transmit queue accepts goes on the wire once, whole and in the order of acceptance, and is handed back once, in that order, and only after it was sent; a chain is refused exactly when there are not enough descriptors, as can_enqueue tells; no call panics. When every enqueue is followed by a flush the card ends with nothing left to send, all chains can be taken back and all descriptors are free again.", "quantifier": "all numbers of descriptors that are powers of two up to 2^63, all histories of enqueue, flush, can_dequeue and dequeue, all chains of 1 to 32 segments of 1 to 16384 bytes, all interleavings of the single descriptor stores of an enqueue with the steps of the card", "why_tests_cant": "depends on where ring positions and generation bits wrap around and on which store of an enqueue the card reads the ring at", "anchors": ["lib/vmxnet3/src/var.rs: TxQueue::{new,capacity,len,count,enqueue,flush,can_enqueue,dequeue,can_dequeue}"]}
{"id": "C57", "title": "The network card hands in the packets that arrive, in order and whole", "statement": "A user of the receive queue gives chains of buffers to the card and takes packets back. Packets come back once, in the order of arrival, in the buffers of the oldest chain given and with exactly the bytes that arrived; a packet too large for a chain comes back as an empty chain; a packet is lost only when there is no chain for it; can_dequeue tells how many packets there are; a chain is refused only when there is no room; no call panics.", "quantifier": "all numbers of descriptors from 2 to 2048, all histories of enqueue, flush, can_dequeue and dequeue, all arriving packets, all interleavings of the single descriptor stores of an enqueue with the steps of the card", "why_tests_cant": "depends on where two rings of positions and generation bits wrap around, on how many completions each packet took, and on which store of an enqueue the card reads the ring at", "anchors": ["lib/vmxnet3/src/var.rs: RxQueue::{new,len,capacity,enqueue,flush,can_enqueue,dequeue,can_dequeue}", "lib/vmxnet3/src/smoltcp.rs: DevQueuePhy::{new,receive}"]}
{"id": "C58", "title": "The bootloader's address space maps exactly what was asked", "statement": "When the bootloader maps a region of physical memory for the kernel, every virtual address of the region leads to the matching physical address with exactly the rights the chosen action names, in kernel mode and in user mode, and no other address changes. A page-aligned region in which nothing is mapped is always mapped; an unaligned region or an action without rights stops the boot; a region that touches an existing mapping stops the boot instead of replacing it.", "quantifier": "every address space reachable by any sequence of maps, every virtual base below 2^48, physical base, size (so every mix of 4 KiB, 2 MiB and 1 GiB pages), action and probed address", "why_tests_cant": "The page size is chosen by alignment and what is already present, the call recurses over table boundaries; tests boot one machine with one memory map.", "anchors": ["bootloader/src/vspace.rs: VSpace::map_generic, map_identity, map_identity_with_offset, resolve_addr, MapAction"]}
{"id": "C59", "title": "The bootloader places the kernel image correctly in memory", "statement": "For every kernel image made of loadable segments and relative relocations, the bootloader finds an address aligned as every segment asks, and afterwards each address of a segment holds the byte of the file or zero, or the relocated word if a relocation covers it, is readable at the kernel's address, and can be written or executed exactly if the segment's flags say so. Nothing else changes: not the rest of the address space, not memory the firmware did not hand out, and no memory in use is handed back. A relocation of another type stops the boot.", "quantifier": "every list of segments (address, size, alignment, content, flags), list of relocations, read-only region, location the firmware picks, prior content of memory and address space", "why_tests_cant": "Tests boot one kernel image on one firmware; the layout arithmetic, the alignment chunk and the interaction of segments have to work for any link result.", "anchors": ["bootloader/src/kernel.rs: Kernel::allocate, load, relocate, make_readonly", "bootloader/src/vspace.rs: allocate_pages_aligned, allocate_pages"]}
{"id": "C60", "title": "The bootloader maps the memory the firmware reports, and a guarded stack", "statement": "When the kernel starts, all memory the firmware reports is mapped 1:1 and in the kernel's own space with the rights of its type, the initial stack is writable and not executable, the page below the stack cannot be accessed, and everything mapped before (the kernel image) is as it was. Building this never stops the boot for a memory map without overlaps.", "quantifier": "every memory map of page-granular, non-overlapping descriptors below 2^46, every place of the stack, every prior address space that is free where the maps go, every address and kind of access", "why_tests_cant": "Memory maps differ with every machine and firmware; a test sees one of them.", "anchors": ["bootloader/src/main.rs: map_physical_memory, uefi_start (stack)", "bootloader/src/vspace.rs: map_identity_with_offset"]}
{"id": "C61", "title": "The machines of a rack agree on who owns which shared memory", "statement": "All machines number the shared-memory devices alike; every shared address has exactly one owner and asking for the owner of an address gives that machine; the controller and a client find the same two message queues, crosswise, whose parts overlap neither one another, nor another machine's queues, nor memory that is handed out; the allocator that places them hands out disjoint, aligned blocks whenever there is room; and freeing a kernel block gives it back to the selected allocator exactly if it is that allocator's memory.", "quantifier": "every set of non-overlapping devices, order of discovery, number of machines, transport, address, selected affinity, and every interleaving of threads allocating blocks of any size", "why_tests_cant": "The layout of shared devices differs per rack and the answers must agree between machines that never compare them; tests run one layout with gaps between devices.", "anchors": ["kernel/src/transport/shmem.rs: Shmem::new, create_shmem_transport, get_affinity_shmem_by_mid, is_shmem_addr, is_shmem_addr_with_affinity, get_shmem_index_by_addr", "kernel/src/memory/shmem_affinity.rs", "lib/rpc/src/transport/shmem/allocator.rs: ShmemAllocator", "lib/rpc/src/transport/shmem/queue_mpmc.rs: State::with_capacity_in, init, capacity", "kernel/src/memory/mod.rs: dealloc"]}
{"id": "C62", "title": "A TLB shootdown that spans machines returns only after every core concerned has been told", "statement": "When memory is unmapped in a rack, the call that shoots down stale translations on the other machines returns only after every core named in the request, on every machine, was asked to flush after the call began and has acknowledged; a core back in its process has flushed. The call always returns.", "quantifier": "for all numbers of machines and cores, queue capacities, sets of target cores, callers, and every interleaving of calls, kernel steps and interrupts", "why_tests_cant": "the outcome depends on the interleaving of several machines and cores, on interrupts that merge, and on calls in flight at the same time", "anchors": ["kernel/src/arch/x86_64/tlb.rs: remote_shootdown, shootdown, remote_enqueue, remote_dequeue, dequeue, Shootdown::process", "kernel/src/arch/x86_64/irq.rs: remote TLB work pending handler"]}
{"id": "C63", "title": "A C program's threads park and unpark without lost or stray wake-ups", "statement": "_lwp_unpark of a thread that waits in _lwp_park ends the wait; if the thread does not wait, its next _lwp_park returns at once. _lwp_park returns only after an unpark. An unpark does not resume a thread that waits for something else or has exited, and none of these calls panics.", "quantifier": "for all numbers of threads, all interleavings of park (timed or not, with or without an unpark), unpark, unpark_all, exit, thread creation and scheduler dispatch", "why_tests_cant": "a lost or stray wake-up needs a particular interleaving of the swap, the block and the wake-up on different cores", "anchors": ["lib/vibrio/src/rumprt/prt/mod.rs: ___lwp_park60, _lwp_unpark, _lwp_unpark_all, _lwp_exit, rumprun_makelwp, rumprun_lwp_init", "lib/lineup/src/scheduler.rs: YieldRequest::Runnable, YieldRequest::Unrunnable"]}
{"id": "C64", "title": "The kernel command line means what it says, and programs get their arguments", "statement": "A kernel command line made of settings key=value (with or without the kernel's name in front) sets each option to the last value given for it and leaves the others at their defaults; anything that is not a setting is refused; parsing never panics; and the arguments given with appcmd reach the C program's argv in order. The order of argv is refuted (it is reversed, and no arguments become one empty one), and so are values that are reserved words, quoted modes, values out of range, paths and escapes, which are silently misread; the statement is proved for all other lines.", "quantifier": "every kernel name, every sequence of settings with every value and spacing, every kernel feature set; every line at all for the absence of panics; every list of arguments", "why_tests_cant": "Lines are unbounded and the outcome depends on how the longest-match lexer splits them; the unit tests try a dozen literals.", "anchors": ["kernel/src/cmdline.rs: CmdToken, CommandLineArguments::from_str, Mode::from, Transport::from", "kernel/src/arch/x86_64/mod.rs: _start (command line)", "lib/vibrio/src/rumprt/crt/mod.rs: main (argv)"]}
{"id": "C65", "title": "A program learns its own process information and the machine's hardware threads as they are", "statement": "process_info() returns exactly the process id, thread-local storage layout and command lines the kernel holds for the process, and threads() returns every hardware thread of the machine, or of all machines of the rack, once, under a name that identifies machine and thread and with its node, package and core. Neither call panics. Refuted beyond fixed buffer sizes: 170 bytes of command lines make process_info panic, 512 threads on a machine make threads fail, and 204 threads on a rack bring the controller down; proved below them.", "quantifier": "every process information with 64-bit fields and every pair of command lines; every list of hardware threads; every rack of up to 16 machines with up to 192 threads each, in every order of registration", "why_tests_cant": "The encodings have length-dependent forms and the buffers fixed sizes; the tests use one short command line and small machines.", "anchors": ["lib/kpi/src/syscalls/process.rs: Process::process_info", "lib/kpi/src/syscalls/system.rs: System::threads", "kernel/src/arch/x86_64/syscall.rs: get_process_info, get_hardware_threads", "kernel/src/arch/x86_64/rackscale/systemops/get_hardware_threads.rs", "kernel/src/arch/x86_64/rackscale/registration.rs: initialize_client, register_client", "kernel/src/arch/x86_64/rackscale/controller_state.rs: init_client_state, get_hardware_threads", "lib/rpc/src/server.rs: Server::data"]}
{"id": "C66", "title": "Condition variables lose no signal and invent none", "statement": "A wait on a condition variable of the user-level thread library gives up the mutex while it blocks and ends with the mutex held by the caller. It ends only after a signal or broadcast that was for it; a signal wakes the newest waiter and a broadcast all, also when it comes after the waiter left the mutex and before it suspended, so that a thread that has been woken can always finish its wait. Other waits of a thread are not disturbed and no assertion fails.", "quantifier": "every number of threads, every interleaving of waits, signals, broadcasts and other use of the mutex and of the scheduler, on any number of cores", "why_tests_cant": "The loss needs a particular interleaving of the list of waiters, the mutex, the run queue and the timers of several cores; tests run one schedule.", "anchors": ["lib/lineup/src/condvar.rs: wait, wait_nowrap, timed_wait, signal, broadcast, remove_item", "lib/lineup/src/scheduler.rs: handle_yield_request, check_wakeups, mark_runnable, waitlist_remove"]}
{"id": "C67", "title": "The kernel debugger stops where it was told and changes only what it was told", "statement": "The debugger answers every request to set or remove a breakpoint or watchpoint as if it kept a list of at most four of them. After it lets the kernel go on, the kernel stops exactly at the accesses one of the points of that list is about, gdb is told the point that was hit, and nothing traps inside the debugger. Reading memory gives the bytes of mapped pages and fails otherwise, writing stores exactly the given bytes or nothing, and changing a register changes no other.", "quantifier": "every sequence of stops and requests made during each, every access of the kernel, every page table, memory content, range and register content", "why_tests_cant": "The four debug registers are filled and freed in any order over many stops, and memory ranges may cross pages of any rights; tests set one breakpoint.", "anchors": ["kernel/src/arch/x86_64/gdb/breakpoints.rs: add_breakpoint, remove_breakpoint, add_hw_watchpoint, remove_hw_watchpoint, watchkind_to_breakcondition", "kernel/src/arch/x86_64/gdb/mod.rs: KernelDebugger::determine_stop_reason", "kernel/src/arch/x86_64/gdb/single_thread_ops.rs: read_registers, write_registers, read_addrs, write_addrs", "kernel/src/arch/x86_64/process.rs: Ring0Resumer::resume"]}
{"id": "C68", "title": "Every thread has its own thread-local variables, with their initial values", "statement": "A thread, of a user program or of a core of the kernel, finds in each of its thread-local variables the value of the template of the program until it stores to it, and then what it stored last, whatever other threads store, whichever core it runs on and whatever is done with other memory. It finds its own control block. Variables are aligned as the program was compiled to expect, and a program with any thread-local template starts.", "quantifier": "every template (contents, size, alignment), every previous content of memory, every choice of blocks by the allocator, every sequence of spawning, switching, stores and loads of any threads on any cores", "why_tests_cant": "Where a variable lies depends on size and alignment of the template, chosen by the linker, and on the schedule of threads over cores; a test runs one image.", "anchors": ["lib/lineup/src/tls2/mod.rs: ThreadControlBlock::new_tls_area, Environment::thread", "lib/lineup/src/tls2/nrk.rs: get_tls_info", "lib/lineup/src/scheduler.rs: SmpScheduler::spawn_with_args, run", "kernel/src/arch/x86_64/tls.rs: get_tls_region, ThreadControlBlock::new, init", "kernel/src/arch/x86_64/process.rs: ElfLoader::tls (Ring3Process)", "bootloader/src/kernel.rs: ElfLoader::tls"]}
{"id": "C69", "title": "Interrupts and system calls keep the registers of a program", "statement": "An interrupt or exception that is not meant for the program leaves all its registers, flags, segment bases and floating point state as they were, and the program goes on where it was in user mode. A system call passes the six argument registers, returns its results in rax, rdi and rsi after the instruction, and changes no other register than the wrapper of the call tells the compiler. A fault of a program, or a software interrupt it raises, has no effect beyond the program. A new program or core starts with registers that hold nothing of what ran before.", "quantifier": "every state of registers of the program and of the kernel, every vector, error code, system call handler and whatever kernel code did to the registers meanwhile", "why_tests_cant": "Each register has its own way through a save area and two different return paths; whether one is lost depends on the instruction that was interrupted and on what the kernel left in the registers.", "anchors": ["kernel/src/arch/x86_64/isr.S: isr_handler, isr_handler_early", "kernel/src/arch/x86_64/exec.S: exec", "kernel/src/arch/x86_64/process.rs: Ring0Resumer::resume, Ring3Resumer::{iret_restore, restore, upcall, start}", "kernel/src/arch/x86_64/irq.rs: handle_generic_exception, pf_handler, dbg_handler, gdb_serial_handler, kcb_resume_handle, kcb_iret_handle", "kernel/src/arch/x86_64/syscall.rs: syscall_handle, enable_fast_syscalls", "kernel/src/arch/x86_64/gdt.rs: GdtTable", "lib/kpi/src/syscalls/macros.rs: syscall!"]}
{"id": "C70", "title": "Device interrupts reach the program and it goes on as it was", "statement": "Each device interrupt enters the upcall handler of the program on its own stack with the number of the vector, further upcalls being held back while it runs. When the handler is done the program goes on with all registers, flags and floating point state it had when it was interrupted. No interrupt is lost, and an interrupt at any instruction, also of the handler or of the code that resumes the program, loses nothing of either.", "quantifier": "every state of the program, device vector, whatever kernel and handler did to the registers, every instruction at which further interrupts come, every number of them", "why_tests_cant": "Interrupts come between any two instructions; the few instructions between enabling upcalls and returning to the program are hardly ever hit in a test.", "anchors": ["kernel/src/arch/x86_64/irq.rs: handle_generic_exception", "kernel/src/arch/x86_64/process.rs: Ring3Executor::upcall, Ring3Resumer::upcall", "lib/kpi/src/x86_64.rs: VirtualCpu::upcalls_disabled", "lib/vibrio/src/upcalls.rs: upcall_while_enabled, resume", "lib/vibrio/src/rumprt/crt/mod.rs: main (pc_disabled)", "usr/init/src/init.rs: install_vcpu_area, upcall_test"]}
{"id": "C71", "title": "A driver's DMA memory, bus addresses, device registers and interrupts are the ones it asked for", "statement": "A driver in a program that asks for the bus address of one of its addresses gets the physical address the processor uses for it at that time. DMA memory is at least as large as asked for, consecutive on the bus, aligned as asked for, at addresses not in use before, and can be used again once freed. Reads and writes of device registers in configuration space reach the register named, as if done one after the other, whatever other threads and programs do. An interrupt of a device runs the handler established for it with its argument, on the core asked for.", "quantifier": "every sequence of maps, unmaps, DMA allocations and address queries, every interleaving of configuration accesses of any threads, every set of devices, lines and I/O APICs", "why_tests_cant": "Wrong bus addresses corrupt memory far from the driver, and only after certain histories of mapping; two accesses to the pair of configuration ports interleave only rarely.", "anchors": ["lib/vibrio/src/rumprt/dev.rs: rumpcomp_pci_virt_to_mach, rumpcomp_pci_dmalloc, rumpcomp_pci_dmafree, pci_bus_address, rumpcomp_pci_confread, rumpcomp_pci_confwrite, rumpcomp_pci_irq_map, rumpcomp_pci_irq_establish, irq_handler", "lib/vibrio/src/mem.rs: Pager::allocate", "kernel/src/arch/x86_64/syscall.rs: identify", "kernel/src/arch/x86_64/irq.rs: ioapic_establish_route"]}
{"id": "C72", "title": "Every other core is started once, with its own stack and arguments", "statement": "When the boot core starts the other cores, each of them enters the kernel exactly once, in the kernel's address space, on a stack of its own, aligned as the calling convention wants it, with the argument that names its thread and node. It registers with the replica of its node under a number of its own. The boot core turns to the next core only after the one before is up, and goes on only when all are up.", "quantifier": "every topology, every interleaving of the boot core with the cores it starts, every delay of a core, every answer of the allocator", "why_tests_cant": "All cores are started through the same few words of one boot page, so a wrong order overwrites the values of a core that is late; the window is a few instructions wide and depends on the machine.", "anchors": ["kernel/src/arch/x86_64/coreboot.rs: boot_app_cores, initialize, copy_bootstrap_code, setup_bootstrap_code, wakeup_core", "kernel/src/arch/x86_64/start_ap.S", "kernel/src/arch/x86_64/mod.rs: start_app_core", "kernel/src/stack.rs: OwnedStack, SliceStack, StaticStack"]}
{"id": "C73", "title": "A PCI device belongs to one driver", "statement": "Drivers take PCI devices by vendor and device number. However their calls interleave, no device goes to two calls or twice to one, none is lost, a call gets only devices it asked for, and a call that gets none, or that asked for all, leaves none of them behind. A call that runs alone gets the first such device of the bus, or all of them in order. Every call returns.", "quantifier": "every list of at most 24 different devices, every number of threads, every interleaving and history of calls", "why_tests_cant": "Two drivers that race for the same device are a matter of which thread takes a lock first.", "anchors": ["kernel/src/pci.rs: PCI_DEVICES, claim_device, claim_devices"]}
{"id": "C74", "title": "A thread of the library OS that blocks gives its virtual CPU to others", "statement": "Threads of the library OS enter and leave mutexes, wait on condition variables with and without a time limit, signal, and sleep. However they interleave: there are never more threads inside the library OS than virtual CPUs and no virtual CPU is lost; a thread gives up only a virtual CPU it has and never takes a second; the holder of the big lock has a virtual CPU; a thread that waits has neither; every call returns with the virtual CPU and the depth of the big lock it started with; and a thread with a virtual CPU never waits with it.", "quantifier": "every number of virtual CPUs and threads, every kind of mutex, every history of calls and every interleaving", "why_tests_cant": "A virtual CPU lost or kept on one rare order of wakeups stops the whole library OS; tests see a few orders.", "anchors": ["lib/vibrio/src/rumprt/mod.rs: rumpkern_sched, rumpkern_unsched", "lib/lineup/src/mutex.rs: Mutex", "lib/lineup/src/condvar.rs: CondVar", "lib/vibrio/src/rumprt/locking.rs: rumpuser_mutex_*, rumpuser_cv_*", "lib/vibrio/src/rumprt/threads.rs: rumpuser_clock_sleep"]}
{"id": "C75", "title": "A rack starts in every order, and every call of a machine is handled once by its handler", "statement": "The machines of a rack boot and connect to the controller in any order. Every machine registers exactly once, and only after the controller said it is ready; the controller handles no call before all machines registered; if everybody keeps running, the controller comes up, every machine is registered and every call with a handler comes back; the calls of a machine are handled one after the other, each once, by the function it is meant for, and the machine gets the answer made for this call.", "quantifier": "every number of client machines, every interleaving of the controller's threads and the machines, every sequence of calls; for the progress part every fair schedule", "why_tests_cant": "The start is a two-phase count over shared counters by as many threads as there are machines; a lost or early wakeup shows in one boot order of very many.", "anchors": ["kernel/src/arch/x86_64/rackscale/controller.rs: run, poll_interface, register_rpcs", "kernel/src/arch/x86_64/rackscale/kernelrpc.rs: KernelRpc", "lib/rpc/src/server.rs: Server::register, Server::add_client, Server::try_handle", "lib/rpc/src/client.rs: Client::connect, Client::call"]}
{"id": "C76", "title": "Files of the library OS behave as rumpuser(3) says", "statement": "The library OS opens, closes, reads, writes and looks up files through its host interface while other programs use, rename and delete the same files. Every call is answered as the interface describes: reads return the bytes last written at that place, writes at an offset or at the position of the file, the descriptor allows exactly what it was opened for, sizes and types are right, and a call fails exactly when the description says it fails.", "quantifier": "every history of calls with any arguments (names, modes, descriptors of the full integer range, buffers, offsets), among any requests of other programs", "why_tests_cant": "The mapping of flags, offsets and descriptors is only wrong for some combinations, and whether a read is right depends on the whole history.", "anchors": ["lib/vibrio/src/rumprt/fs.rs: rumpuser_open, rumpuser_close, rumpuser_getfileinfo, rumpuser_iovread, rumpuser_iovwrite", "lib/kpi/src/syscalls/io.rs: Fs", "lib/kpi/src/io.rs: FileFlags"]}
{"id": "C77", "title": "What programs print appears on the console, in order and line by line", "statement": "Programs on several cores print text at the same time while the kernel writes messages of its own. Every printed byte appears on the console exactly once and in the order its core printed it; a complete line is on the console when the call returns; lines of different cores are not mixed; on a machine of a rack the controller gets the same text; every call returns and none stops the program; nothing is lost when the program ends.", "quantifier": "every number of cores, buffer capacity, sequence of texts, interleaving of the cores byte by byte, and output of the kernel at any time", "why_tests_cant": "Mixed or missing output depends on the interleaving of cores and on where newlines and the end of the buffer fall.", "anchors": ["kernel/src/arch/x86_64/serial.rs: buffered_print, buffered_print_and_return", "kernel/src/arch/x86_64/syscall.rs: log, exit", "kernel/src/arch/x86_64/rackscale/processops/print.rs: rpc_log, handle_log", "lib/kpi/src/syscalls/process.rs: Process::print", "lib/vibrio/src/writer.rs: Writer", "lib/vibrio/src/rumprt/mod.rs: rumpuser_putchar"]}
{"id": "C78", "title": "Programs on the boot volumes reach the kernel under their names", "statement": "The boot loader reads the root directories of all boot volumes. Every file there, except for the loader itself and files with names of 32 bytes or more, can afterwards be started by its name, and what is started is exactly the contents of the file. A name that no file has is reported as unknown. The kernel image that is started is the first module, the one symbols are looked up in. The machine starts if a kernel and a command line are present.", "quantifier": "every list of volumes, directory, file name and contents, and every page allocator of the firmware that does not hand out pages twice", "why_tests_cant": "Whether a program is found depends on the number and order of directory entries, on the lengths of unrelated names and on the other volumes; tests use the one volume of the build.", "anchors": ["bootloader/src/modules.rs: load_modules_on_all_sfs, load_modules, load_binary_into_memory, locate_binary, DCStr16", "bootloader/src/main.rs: uefi_start, allocate_pages", "lib/bootloader_shared/src/lib.rs: Module, KernelArgs::kernel_binary", "kernel/src/process.rs: make_process", "kernel/src/arch/x86_64/process.rs: load"]}
{"id": "C79", "title": "Random bytes, clocks and parameters of the library OS are what rumpuser(3) promises", "statement": "A request for random bytes fills the buffer with random bytes and reports how many; it fails only when the processor has none. The monotonic clock is the time since the machine was started, the wall clock is that time after the second of the start, neither goes backwards, the nanoseconds are below a second, and unknown clocks are refused. The number of processors is what the command line says, and 1 if it says no number; the other parameters have fixed values; an unknown name gives ENOENT; no more than the buffer is written, and a buffer that is too small gives an error.", "quantifier": "every sequence of results of the random number instruction, buffer, time, start time, clock, command line and parameter name", "why_tests_cant": "Failures of the random number instruction cannot be provoked, and the texts and times are unbounded.", "anchors": ["lib/vibrio/src/rumprt/mod.rs: rumpuser_getrandom, rumpuser_clock_gettime, rumpuser_getparam"]}
{"id": "C80", "title": "The ACPI interpreter gets the memory, mappings, device registers and tables it asks for", "statement": "Whatever the interpreter allocates, writes in its blocks and frees, blocks it has at the same time do not overlap, and freeing a block gives back to the heap exactly the block it came from, with its size and alignment. Mapping physical memory asks for whole pages that cover it and no page more, and the pointer shows that memory. Reading a register of a PCI function returns the bytes of that register. The root pointer is one of the firmware's.", "quantifier": "every sequence of allocations, writes and frees, physical range, configuration space, bus, device, function, register and width, and list of firmware tables", "why_tests_cant": "The interpreter's requests depend on byte code in the firmware of each machine; a test machine shows one firmware.", "anchors": ["kernel/src/arch/x86_64/acpi.rs: AcpiOsGetRootPointer, AcpiOsAllocate, AcpiOsFree, AcpiOsMapMemory, AcpiOsReadPciConfiguration", "bootloader/src/main.rs: efi_main"]}
{"id": "C81", "title": "Refilling a core's cache of shared memory gives the pages it needs and keeps account of every page", "statement": "When a core of a rack runs out of shared memory of a machine, the refill adds the base and large pages it needs, taken from the machine's cache or from large pages it was given. No page is held twice, none appears that was not held or given, and pages are dropped only when both caches are full. It asks for at most one large page more than needed, and for none more when the cache has the base pages. Afterwards the core takes memory from where it did before, whether the refill succeeds or is refused.", "quantifier": "every content and capacity of the two caches, number of pages needed, machine, role and answer to the request", "why_tests_cant": "Which pages move depends on how full both caches are and on answers of another machine; the cases multiply beyond what tests enumerate.", "anchors": ["kernel/src/memory/mod.rs: KernelAllocator::try_refill_shmem", "kernel/src/memory/mcache.rs: MCache", "kernel/src/arch/x86_64/rackscale/get_shmem_frames.rs: rpc_get_shmem_frames", "kernel/src/arch/x86_64/rackscale/dcm/affinity_alloc.rs: dcm_affinity_alloc"]}
{"id": "C82", "title": "The network card finds the queues, shared record and hardware address the driver set up", "statement": "For every number of queues asked for, the records of all queues lie in the memory the card is told about and do not overlap. The card, reading that memory as its interface says, finds the rings of each transmit and receive queue. It gets the address of the shared record and enough interrupts, the event interrupt being the last. The hardware address is the one the card reports and stays so. The driver attaches exactly to cards it supports, and its idea of the link is what the card said last.", "quantifier": "every number of queues, address, rings, answers of the card and earlier state of the link", "why_tests_cant": "Tests run with one queue of each kind on one emulated card, where mistakes between the two kinds cannot be seen.", "anchors": ["lib/vmxnet3/src/vmx.rs: TRXQueueShared, VMXNet3::new, tx_queues_alloc, rx_queues_alloc, attach_pre, reinit_shared_data, set_lladdr, link_status", "lib/vmxnet3/src/reg.rs: DriverShared, vmxnet3_txq_shared, vmxnet3_rxq_shared"]}
