{
 "claims": [
  {
   "property": "C01",
   "status": "proved",
   "theorems": [
    "C01_histories_match_byte_array_spec",
    "C01_read_returns_bytes"
   ],
   "note": "Histories in which some request crashes the kernel or exhausts the heap are covered by C10 and C03."
  },
  {
   "property": "C02",
   "status": "proved",
   "theorems": [
    "C02_write_touches_only_its_range"
   ],
   "note": ""
  },
  {
   "property": "C03",
   "status": "partial",
   "theorems": [
    "C03_errors_change_nothing_partial",
    "C03_failed_write_keeps_size_refuted",
    "C03_C08_rename_to_self_is_noop_refuted",
    "C03_read_needs_permission",
    "C03_write_needs_permission",
    "C03_directories_not_readable_or_writable"
   ],
   "note": "False for heap exhaustion during a growing write and for rename of a path to itself (both refuted with witnesses); proved for every other error."
  },
  {
   "property": "C04",
   "status": "proved",
   "theorems": [
    "C04_open_returns_least_free",
    "C04_open_fails_when_full",
    "C04_close_invalidates",
    "C04_closed_descriptor_unusable",
    "C04_other_descriptors_unchanged",
    "C04_C01_fresh_cursor_at_zero"
   ],
   "note": ""
  },
  {
   "property": "C05",
   "status": "proved",
   "theorems": [
    "C05_open_existing",
    "C05_open_creates",
    "C05_open_missing_without_creat",
    "C05_open_error_leaks_nothing",
    "C05_open_succeeds"
   ],
   "note": ""
  },
  {
   "property": "C06",
   "status": "proved",
   "theorems": [
    "C06_cursor_read",
    "C06_cursor_write",
    "C06_positional_ops_keep_cursors",
    "C06_writes_then_read"
   ],
   "note": ""
  },
  {
   "property": "C07",
   "status": "proved",
   "theorems": [
    "C07_distinct_paths_distinct_nodes",
    "C07_names_refer_to_live_nodes",
    "C07_identities_never_reused",
    "C07_create_existing_fails"
   ],
   "note": ""
  },
  {
   "property": "C08",
   "status": "partial",
   "theorems": [
    "C08_rename_moves",
    "C08_rename_missing",
    "C03_C08_rename_to_self_is_noop_refuted"
   ],
   "note": "Proved for old /= new; rename of a path to itself destroys the file (refuted)."
  },
  {
   "property": "C09",
   "status": "partial",
   "theorems": [
    "C09_replicas_converge_partial",
    "C09_one_log_suffices_for_reads",
    "C09_cursor_read_diverges_refuted",
    "C09_stale_routing_diverges_refuted"
   ],
   "note": "Proved for all consumption orders that respect the logs when every operation carries a correct routing hint and no read-only operation moves a cursor; both exclusions are refuted with witnesses (read requests executed on one replica advance its cursor; hints computed from stale replicas)."
  },
  {
   "property": "C10",
   "status": "partial",
   "theorems": [
    "C10_panics_exactly_when",
    "C10_registered_never_panics_partial",
    "C10_never_panics_refuted",
    "C10_root_descriptor_routing_panics_refuted"
   ],
   "note": "Exact characterisation of the panicking requests; the full statement is refuted (append to a deleted open file)."
  },
  {
   "property": "C11",
   "status": "proved",
   "theorems": [
    "C11_exclusion",
    "C11_reader_excludes_writers",
    "C11_no_panic",
    "C11_all_released",
    "C11_available",
    "C11_second_node_refuted",
    "C11_spurious_unlock_refuted"
   ],
   "note": "Every atomic operation is a step, any number of threads and any interleaving, sequentially consistent memory. Exclusion holds if the writers inspect the indices of all readers; on a second NUMA node they do not and the lock fails (refutation). write_unlock panics on a spurious compare-exchange failure (refutation)."
  },
  {
   "property": "C12",
   "status": "proved",
   "theorems": [
    "C12_split_at",
    "C12_split_at_large_boundary",
    "C12_page_iteration"
   ],
   "note": ""
  },
  {
   "property": "C13",
   "status": "partial",
   "theorems": [
    "C13_no_page_handed_out_twice",
    "C13_received_pages_are_aligned",
    "C13_no_page_lost",
    "C13_failures_change_nothing",
    "C13_reap_count",
    "C13_no_panic",
    "C13_grow_partial_refuted",
    "C13_populate_silent_loss_refuted",
    "C13_populate_understates_loss_refuted",
    "C13_populate_assertion_refuted"
   ],
   "note": "Disjointness, containment, alignment and affinity hold over all histories. 'Failing operations change nothing' is false for grow and 'none lost silently' is false for populate into full stacks (refuted)."
  },
  {
   "property": "C14",
   "status": "proved",
   "theorems": [
    "C14_blocks_disjoint_and_large_enough",
    "C14_exhaustion_exact"
   ],
   "note": ""
  },
  {
   "property": "C15",
   "status": "proved",
   "theorems": [
    "C15_size_to_pages_minimal"
   ],
   "note": ""
  },
  {
   "property": "C16",
   "status": "partial",
   "theorems": [
    "C16_same_outcome_on_all_replicas_partial",
    "C16_blocks_exclusive_partial",
    "C16_panics_only_when_queue_full",
    "C16_no_deadlock",
    "C16_failure_differs_between_replicas_refuted",
    "C16_failure_shifts_leader_refuted",
    "C16_failure_panics_refuted"
   ],
   "note": "Proved for all interleavings when the backing allocator does not fail; with failures the replicas can see different outcomes, refuted with three witnesses."
  },
  {
   "property": "C17",
   "status": "partial",
   "theorems": [
    "C17_page_table_map",
    "C17_model_rounds_suffice",
    "C17_map_unmapped_range",
    "C17_map_ok",
    "C17_map_frames",
    "C17_map_ok_without_mapping_refuted",
    "C17_leftover_table_panics_refuted",
    "C17_noncanonical_alias_refuted"
   ],
   "note": "Proved for one page table with any contents and any frame size whenever map returns, and for every reachable address space with 4 KiB and 2 MiB frames. False of the code, with witnesses: Ok without mapping when a smaller identical mapping exists; frames of several pages may panic on left-over tables; addresses from 2^48 on alias."
  },
  {
   "property": "C18",
   "status": "partial",
   "theorems": [
    "C18_page_table_never_overwrites",
    "C18_conflict",
    "C18_ok_is_repetition",
    "C18_map_frames_not_atomic_refuted"
   ],
   "note": "Proved for page-sized frames. At the page-table level a conflict panics instead of returning an error; map_frames is not atomic."
  },
  {
   "property": "C19",
   "status": "partial",
   "theorems": [
    "C19_page_table_unmap",
    "C19_unmap",
    "C19_multi_page_frame_refuted",
    "C19_pages_4k_large_frame_refuted"
   ],
   "note": "Proved for every page table and for every address space of page-sized frames. Mappings of several pages lose only one page (refuted with witness)."
  },
  {
   "property": "C20",
   "status": "proved",
   "theorems": [
    "C20_page_table_adjust",
    "C20_adjust"
   ],
   "note": ""
  },
  {
   "property": "C21",
   "status": "proved",
   "theorems": [
    "C21_bookkeeping",
    "C21_no_panic"
   ],
   "note": "Ranges over all histories of map, unmap and adjust with page-sized frames below 2^48."
  },
  {
   "property": "C22",
   "status": "partial",
   "theorems": [
    "C22_hardware_rights",
    "C22_read_back",
    "C22_combined_rights",
    "C22_mapped_rights",
    "C22_none_is_readable_refuted",
    "C22_no_cache_dropped_refuted"
   ],
   "note": "Write, execute and user permissions exactly as requested. The present bit is forced and not-cached is dropped (refuted with witnesses)."
  },
  {
   "property": "C23",
   "status": "partial",
   "theorems": [
    "C23_slice_confined",
    "C23_read_access_checked",
    "C23_mapped_slices_accessible",
    "C23_subslice_within",
    "C23_subslice_in_bounds_succeeds",
    "C23_write_subslice_bounds",
    "C23_write_to_readonly_accepted_refuted",
    "C23_subslice_reversed_bounds_refuted"
   ],
   "note": "Construction, read access and sub-slices with ordered bounds proved. Write access is checked as read access only, and reversed sub-slice bounds escape the slice in builds without debug assertions (both refuted with witnesses)."
  },
  {
   "property": "C24",
   "status": "proved",
   "theorems": [
    "C24_pid_allocation",
    "C24_out_of_pids_iff",
    "C24_free_pid",
    "C24_reuse_only_after_free"
   ],
   "note": "Stated over the history of responses, for every pattern of failing memory reservations."
  },
  {
   "property": "C25",
   "status": "proved",
   "theorems": [
    "C25_current_owner",
    "C25_allocate_core",
    "C25_release_core",
    "C25_reallocated_only_after_release",
    "C25_freed_process_keeps_core_refuted",
    "C25_unknown_pid_gets_core_refuted",
    "C25_replicas_diverge_on_oom_refuted"
   ],
   "note": "The refuted theorems record surprising consequences: freeing a process does not release its cores, ids are not checked, and a reservation failing on one replica makes replicas differ."
  },
  {
   "property": "C26",
   "status": "proved",
   "theorems": [
    "C26_frames_by_history",
    "C26_same_frame_twice_refuted",
    "C26_process_no_panic",
    "C26_register",
    "C26_map_by_id",
    "C26_release_safe",
    "C26_release_exact",
    "C26_released_frame_unmapped",
    "C26_failed_map_pins_frame_refuted",
    "C26_repeated_map_pins_frame_refuted"
   ],
   "note": "For the table of frames alone and for whole processes, over all histories of map, map by id, device map, unmap, register, release and executor operations on frames as the allocator hands them out (page sized, aligned, not registered twice, the latter shown necessary). The claim needs only that a release succeeds for unmapped frames alone. The converse holds when every map by id takes effect; a failed or repeated map pins the frame for ever (refutations)."
  },
  {
   "property": "C27",
   "status": "proved",
   "theorems": [
    "C27_bounded_fifo",
    "C27_no_loss_no_duplication",
    "C27_no_data_race",
    "C27_no_panic",
    "C27_alone",
    "C27_capacity",
    "C27_empty_despite_completed_push_refuted"
   ],
   "note": "Successful operations are linearizable as a bounded FIFO queue, for all thread counts and interleavings (sequentially consistent memory, unbounded positions); refusals are characterised exactly. Full linearizability including empty reports is refuted by an execution."
  },
  {
   "property": "C28",
   "status": "partial",
   "theorems": [
    "C28_messages_intact",
    "C28_no_other_panic",
    "C28_send_receive_partial",
    "C28_empty_message_refuted",
    "C28_small_buffer_refuted"
   ],
   "note": "Every interleaving of any number of senders and receivers with arbitrary slices; the queue is proved a bounded FIFO of byte messages by a simulation onto the queue of C27. Missing from the full claim, because false of the code: an empty message is reported as sent and never arrives, and a receiver with too little room panics and disables its slot (refutations)."
  },
  {
   "property": "C29",
   "status": "partial",
   "theorems": [
    "C29_calls",
    "C29_call_answered",
    "C29_register",
    "C29_procedure_calls_partial",
    "C29_stale_bytes_refuted"
   ],
   "note": "Trace inclusion of client and server in a specification of remote calls, for all handlers and histories; the ordered channels are those of C28. Missing from the full claim, because false of the code: handlers get the whole buffer, so a reply may depend on bytes of earlier requests behind the payload (refutation). For handlers that look only at the payload C29_procedure_calls_partial says that remote calls are procedure calls."
  },
  {
   "property": "C30",
   "status": "partial",
   "theorems": [
    "C30_returns_only_after_flush",
    "C30_return_before_flush_refuted",
    "C30_interrupts_exactly",
    "C30_all_targets_interrupted_partial",
    "C30_cluster_limit",
    "C30_core_not_interrupted_refuted",
    "C30_call_hangs_uncovered_core_refuted",
    "C30_call_hangs_merged_interrupts_refuted",
    "C30_call_hangs_full_queue_refuted",
    "C30_single_call_progress_partial",
    "C30_unmap_names_cores"
   ],
   "note": "Proved for every interleaving: a call returns only after every target acknowledged, and a target back in user code has flushed. The interrupts sent are characterised exactly. Missing from the full claim, because false of the code: targets with an APIC address of 4..15 alone in their cluster get no interrupt; two concurrent calls to one target share a pending bit and one may wait for ever; a full queue drops the request; acknowledgement precedes the flush. Progress is proved for one call at a time with targets the test of tlb.rs:373 covers."
  },
  {
   "property": "C31",
   "status": "proved",
   "theorems": [
    "C31_bitmap_is_set",
    "C31_large_ids_panic"
   ],
   "note": ""
  },
  {
   "property": "C32",
   "status": "proved",
   "theorems": [
    "C32_decoding_matches_table",
    "C32_codes_distinct",
    "C32_unknown_codes_rejected",
    "C32_decoding_never_panics",
    "C32_rejected_has_no_effect",
    "C32_stub_reaches_its_handler",
    "C32_stub_special_cases",
    "C32_negative_offsets_refused",
    "C32_error_numbers_round_trip",
    "C32_unknown_file_op_not_reported_as_unsupported_refuted",
    "C32_test_call_panics_refuted",
    "C32_test_call_release_never_panics"
   ],
   "note": "Decoding is proved equivalent to a literal table for all register contents; also end to end through the user-level stubs."
  },
  {
   "property": "C33",
   "status": "proved",
   "theorems": [
    "C33_gtid_round_trip",
    "C33_gtid_injective",
    "C33_gtid_decompose",
    "C33_core_index_injective",
    "C33_core_index_collision_refuted"
   ],
   "note": "Index injectivity is per deployment (single machine, or rackscale clients 1-4)."
  },
  {
   "property": "C34",
   "status": "proved",
   "theorems": [
    "C34_mutual_exclusion",
    "C34_fifo_handoff",
    "C34_no_lost_waiter",
    "C34_all_released",
    "C34_handoff_bounded",
    "C34_no_panic",
    "C34_many_threads_refuted",
    "C34_plain_mutex_refuted",
    "C34_try_enter_spins_refuted"
   ],
   "note": "Within the wait list capacity; refutations show what fails beyond it."
  },
  {
   "property": "C35",
   "status": "proved",
   "theorems": [
    "C35_exclusion",
    "C35_upgrade_fails_only_if_shared",
    "C35_no_panic",
    "C35_no_try_no_panic",
    "C35_reader_count",
    "C35_all_released",
    "C35_no_deadlock",
    "C35_readers_share",
    "C35_available",
    "C35_try_enter_panics_refuted"
   ],
   "note": "Inner mutexes are represented by what C34 establishes. Finding: try_enter(Write) by a former first reader panics."
  },
  {
   "property": "C36",
   "status": "partial",
   "theorems": [
    "C36_bound_refuted",
    "C36_permits_lost_refuted",
    "C36_bound_partial",
    "C36_bound_one_consumer_partial",
    "C36_no_lost_wakeup",
    "C36_first_down_never_blocks_partial",
    "C36_up_then_down_partial",
    "C36_no_panic"
   ],
   "note": "The claim is false of the code (down takes all permits; a woken thread does not test the count again): refutations with witnesses, and what holds instead."
  },
  {
   "property": "C37",
   "status": "partial",
   "theorems": [
    "C37_ids_never_reused",
    "C37_wakeups_in_order",
    "C37_sleeper_leaves_only_when_due",
    "C37_exit_wakes_joiners",
    "C37_join_ended_returns",
    "C37_no_panic",
    "C37_one_place",
    "C37_sleeps_until_due",
    "C37_joins_until_exit",
    "C37_dispatch_in_order",
    "C37_capacity",
    "C37_limit_2048_refuted",
    "C37_early_dispatch_refuted",
    "C37_ended_joiner_panics",
    "C37_wake_ended_panics",
    "C37_irq_elsewhere_panics"
   ],
   "note": "Ids, the order of wake-ups and the wake-up of joiners hold for all histories. 'Not before its time', no panic and FIFO hold for histories that meet the stated discipline; without it they are false of the code (witnesses)."
  },
  {
   "property": "C38",
   "status": "proved",
   "theorems": [
    "C38_request",
    "C38_one_pager_disjoint",
    "C38_ranges_disjoint",
    "C38_pages_disjoint",
    "C38_pages_no_panic",
    "C38_try_complete_partial",
    "C38_try_skips_pager_refuted",
    "C38_core_0_refuted",
    "C38_mmap",
    "C38_big_allocation_partial",
    "C38_crossing_refuted",
    "C38_big_allocation_refuted",
    "C38_big_alignment_refuted"
   ],
   "note": "Disjointness as claimed, and without the condition when only pages are requested; refutations show crossing requests, the search for a page and big allocations at the limits."
  },
  {
   "property": "C39",
   "status": "partial",
   "theorems": [
    "C39_returns_assigned",
    "C39_completes_partial",
    "C39_lost_notification_hangs",
    "C39_early_second_hangs_refuted",
    "C39_early_both_hangs_refuted",
    "C39_other_call_hangs_refuted"
   ],
   "note": "A call that returns returns exactly the assigned nodes for every interleaving, any number of concurrent calls. Completion is proved when notifications never precede the registration; with early notifications it is false of the code (alloc_id + 1 is removed where alloc_id + i is meant, and the wait loop assumes the early ones are a prefix): three refutations, each showing that the call never returns in any continuation."
  },
  {
   "property": "C40",
   "status": "partial",
   "theorems": [
    "C40_claim_partial",
    "C40_claims_distinct_partial",
    "C40_claims_registered",
    "C40_claims_listed",
    "C40_no_panic",
    "C40_register_again_refuted",
    "C40_machine_0_panics",
    "C40_request_core",
    "C40_release_claims_refuted",
    "C40_released_not_reusable_refuted"
   ],
   "note": "For all interleavings of registrations (in their two critical sections) and claims in which each machine registers once. Missing from the full claim, because false of the code, are histories in which a machine registers again: a second registration frees claimed threads again; a released core is never free again and releasing it claims another one."
  },
  {
   "property": "C41",
   "status": "partial",
   "theorems": [
    "C41_handed_out_once",
    "C41_assign",
    "C41_regions_disjoint_partial",
    "C41_layout",
    "C41_memory",
    "C41_regions_overlap_refuted",
    "C41_failed_allocation_then_panic_refuted",
    "C41_executors_lost_refuted",
    "C41_user_mapping_in_area_panics_refuted"
   ],
   "note": "Ids are never reused and no executor is handed out twice, for all histories. Disjoint memory is proved for histories in which no executor allocation fails half way. Missing from the full claim, because false of the code: after such a failure and an unmap two executors share memory (refutation). C41_memory assumes nothing is unmapped in the executor area."
  },
  {
   "property": "C42",
   "status": "partial",
   "theorems": [
    "C42_load_partial",
    "C42_bss_not_zeroed_refuted",
    "C42_two_writable_headers_refuted",
    "C42_shared_page_panics_refuted",
    "C42_relocation_behind_page_refuted"
   ],
   "note": "Both passes of the loader, for all programs whose headers touch different 2 MiB pages, with at most one writable header of at most 4 pages and relative relocations of aligned words. Missing from the full claim, because false of the code: zero-initialised memory keeps the old content of its page; also, a second writable header shows the first one, headers on one page panic, and a relocation at the start of a later data page also changes foreign memory (refutations; the latter three are outside of the layout assumed)."
  },
  {
   "property": "C43",
   "status": "partial",
   "theorems": [
    "C43_map_partial",
    "C43_unmap",
    "C43_map_frame_id",
    "C43_alloc_release",
    "C43_failed_release",
    "C43_identify",
    "C43_map_device",
    "C43_map_of_nothing_panics_refuted",
    "C43_map_overlapping_panics_refuted",
    "C43_map_unaligned_large_panics_refuted",
    "C43_alloc_with_full_table_leaks_refuted"
   ],
   "note": "The calls on one process, over the address space of C17-C21. C43_map_partial covers well-formed requests in unmapped ranges with enough memory. Missing from the full claim, because false of the code: requests of size 0, overlapping ones and unaligned ones of 2 MiB or more panic the kernel instead of being refused. A frame is leaked when all frame ids are in use. map_device maps any physical page. identify is stated below the kernel base only; whether the range mapped is in user space is not checked by the code and not part of the theorems."
  },
  {
   "property": "C44",
   "status": "partial",
   "theorems": [
    "C44_isolation_partial",
    "C44_no_interference_partial",
    "C44_map_is_zeroed_partial",
    "C44_map_device_refuted",
    "C44_kernel_half_refuted",
    "C44_allocated_frame_not_zeroed_refuted"
   ],
   "note": "Any number of processes, all histories of calls below the kernel base that do not map device memory. Missing from the full claim, because false of the code: map_device maps any physical memory, such as that of another process; map accepts bases in the kernel's half and changes tables all processes share; a frame from allocate_physical still has what another process wrote."
  },
  {
   "property": "C45",
   "status": "proved",
   "theorems": [
    "C45_boot_gives_no_byte_twice",
    "C45_node_memory_is_local"
   ],
   "note": "All memory maps and topologies on which boot succeeds. The boot core's early memory is not claimed to be on its node, see C46."
  },
  {
   "property": "C46",
   "status": "partial",
   "theorems": [
    "C46_early_stages_lossless",
    "C46_boot_loss_bounded_partial",
    "C46_node_loss_bounded_partial",
    "C46_boot_succeeds_partial",
    "C46_global_memory_succeeds_partial",
    "C46_boot_loses_memory_refuted",
    "C46_one_node_upper_bound",
    "C46_large_machine_loses_refuted",
    "C46_nodes_out_of_order_panics_refuted",
    "C46_early_memory_mislabelled_refuted"
   ],
   "note": "Missing from the full claim, because false of the code: 195 base pages per node are lost at boot; a node keeps at most 87% of its memory plus about 549 MiB; a machine whose node numbers do not follow its addresses panics; the early memory is labelled node 0 wherever it is. Success is proved at boot level for machines without topology, and for the global memory with any nodes in order."
  },
  {
   "property": "C47",
   "status": "partial",
   "theorems": [
    "C47_heap_blocks_disjoint_partial",
    "C47_heap_blocks_disjoint_refuted"
   ],
   "note": "All histories in which a small block is not resized in place to another size class. Missing from the full claim, because false of the code: after such a resize, freeing the block frees the slot of another block (refutation). The slab allocator is any choice of a suitable free slot."
  },
  {
   "property": "C48",
   "status": "partial",
   "theorems": [
    "C48_blocks_on_selected_node_partial",
    "C48_select_node",
    "C48_blocks_on_selected_node_refuted"
   ],
   "note": "All histories in which large blocks are freed or moved on a core that has their node selected. Missing from the full claim, because false of the code: a large block freed elsewhere becomes memory of the wrong node (refutation)."
  },
  {
   "property": "C49",
   "status": "partial",
   "theorems": [
    "C49_heap_alloc_progress_partial",
    "C49_heap_free_progress_partial",
    "C49_no_huge_blocks",
    "C49_big_blocks_never_free_again",
    "C49_heap_free_refuted"
   ],
   "note": "Requests of up to 2 MiB and alignments of up to 4 KiB. For small blocks success is stated for the slab choice that takes a slot of the page just added. Missing from the full claim, because false of the code: freeing a large block into a full cache panics, requests above 257 MiB never succeed, memory of blocks above 2 MiB is never available again."
  },
  {
   "property": "C50",
   "status": "partial",
   "theorems": [
    "C50_rack_calls_are_local_calls_partial",
    "C50_answers_survive",
    "C50_call_answered_partial",
    "C50_waiting_call_proceeds",
    "C50_large_call_refuted",
    "C50_large_call_witness"
   ],
   "note": "All histories of any number of clients, with the messages' bytes; calls of a process are well typed. Missing from the full claim, because false of the code: a read of more than 8192 bytes, or a write or path that does not fit one message, panics the client machine although the local call returns."
  },
  {
   "property": "C51",
   "status": "partial",
   "theorems": [
    "C51_isolation_partial",
    "C51_no_interference_partial",
    "C51_map_partial",
    "C51_map_succeeds_partial",
    "C51_cached_page_not_zeroed_refuted",
    "C51_oversized_frame_refuted",
    "C51_bad_map_stops_client_refuted",
    "C51_large_map_stops_controller",
    "C51_controller_needed",
    "C51_large_map_refuted"
   ],
   "note": "All histories of any number of processes and machines below the kernel base, without device memory, with frames of 4 KiB and 2 MiB. Missing from the full claim, because false of the code: pages from the client's cache are not zeroed; allocate_physical registers a frame of any size asked for although it got 2 MiB, so processes share memory; a request for nothing or for a range in use panics the client, one for more than 508 large pages stops the controller."
  },
  {
   "property": "C52",
   "status": "partial",
   "theorems": [
    "C52_same_answers_partial",
    "C52_extension_refuted",
    "C52_unaligned_unmap_refuted",
    "C52_no_rights_refuted",
    "C52_several_pages_refuted"
   ],
   "note": "All histories with frames of one page below 2^48 that do not extend a mapping, present and cacheable rights, aligned addresses for unmap. Missing from the full claim, because false of the code: a map that extends a mapping is accepted but maps nothing; unmap of an unaligned unmapped address gives another error; pages mapped without rights can be read; frames of several pages are not unmapped as a whole."
  },
  {
   "property": "C53",
   "status": "partial",
   "theorems": [
    "C53_contents_partial",
    "C53_blocks_partial",
    "C53_free_partial",
    "C53_no_leak_partial",
    "C53_malloc_answers_partial",
    "C53_shrink_refuted",
    "C53_shrink_panic_refuted",
    "C53_memalign_refuted",
    "C53_memalign_panic_refuted",
    "C53_overflow_refuted",
    "C53_out_of_memory_refuted"
   ],
   "note": "All histories in which sizes fit, realloc does not change the size class in place, posix_memalign alignments are at most 4 KiB, and blocks above 2 MiB fit the core's own region. Missing from the full claim, because false of the code: realloc to a smaller class followed by free frees another block or panics; posix_memalign results are off by 16 for every alignment above 16; sizes wrap around; realloc and large malloc end the process when memory is out."
  },
  {
   "property": "C54",
   "status": "partial",
   "theorems": [
    "C54_in_order_partial",
    "C54_bounded",
    "C54_delivered_partial",
    "C54_send_waits_partial",
    "C54_try",
    "C54_unpolled",
    "C54_after_error_refuted"
   ],
   "note": "All messages, cuts and interleavings, with TCP as a pair of buffers and a wire that keep bytes in order, up to the first receive that fails. Missing from the full claim, because false of the code: after a receive with too little room the payload stays in the stream and is taken for the next message. C54_unpolled: a send returns before anything is transmitted; someone has to poll the sender's interface."
  },
  {
   "property": "C55",
   "status": "partial",
   "theorems": [
    "C55_calls_partial",
    "C55_answered_partial",
    "C55_bounded_partial",
    "C55_after_error_refuted"
   ],
   "note": "All handlers, calls, cuts and interleavings, up to the first message too large for its receiver (a request above 8192 bytes or a reply larger than the caller's buffers). Missing from the full claim, because false of the code: after such an error the payload stays in the stream, and the next call returns it as its answer although the server has not seen the call. A call whose handler fails or whose type has no handler never returns, as over shared memory."
  },
  {
   "property": "C56",
   "status": "partial",
   "theorems": [
    "C56_sends_partial",
    "C56_delivers_partial",
    "C56_rests_partial",
    "C56_empty_refuted",
    "C56_length_refuted",
    "C56_segments_refuted",
    "C56_flush_refuted"
   ],
   "note": "The driver's rings against a card that follows the generation bits, as the emulated one. Missing from the claim over all chains, because false of the code: an empty chain (accepted; the next packet is never sent), segments of 0 or more than 16384 bytes (sent with another length), more than 32 segments (panic), and several enqueues for one flush (the doorbell can be left out). The card is assumed to write a completion for every packet; memory ordering of the stores is sequentially consistent."
  },
  {
   "property": "C57",
   "status": "partial",
   "theorems": [
    "C57_receives_partial",
    "C57_single_partial",
    "C57_overflow_refuted",
    "C57_full_refuted",
    "C57_refuses_refuted",
    "C57_empty_refuted",
    "C57_chains_refuted"
   ],
   "note": "Proved for users that keep fewer chains in the queue than half its descriptors and give no buffer twice, for chains of two buffers of 1 to 16383 bytes and packets that are not empty; that no chain is refused, for one chain at a time and packets that fit the first buffer, as the network stack uses it. Missing from the claim because false of the code: more chains (accepted, and the card is stuck), several chains at a time (refused with one in the queue), empty packets (the next one comes back in the wrong buffers), other chains (panic, or lengths cut). The card is modelled after the emulated one; checksum, VLAN and RSS fields are not modelled; debug assertions count as panics."
  },
  {
   "property": "C58",
   "status": "partial",
   "theorems": [
    "C58_maps_partial",
    "C58_free",
    "C58_rejects",
    "C58_overlap_partial",
    "C58_overlap_refuted",
    "C58_user_refuted"
   ],
   "note": "Kernel-mode translation and rights are exact, and free aligned regions always map. Refuted: the loops for 2 MiB and 1 GiB pages test only the first entry, so a larger region silently replaces mappings in its later entries (overlap is detected when no large page fits); user mode is never let in because tables are linked without the user bit."
  },
  {
   "property": "C59",
   "status": "partial",
   "theorems": [
    "C59_loads_partial",
    "C59_bad_relocation",
    "C59_base_refuted",
    "C59_shared_page_refuted",
    "C59_readonly_refuted",
    "C59_leak_refuted"
   ],
   "note": "Proved for images linked at address 0 whose segments share no page, with addends below 2^63; contents, relocations, alignment and the frame hold. Refuted: an image linked elsewhere is written outside the memory taken; segments that share a page panic; the two tables of the feature all-writable are swapped and the feature is not declared, so read-only segments are always writable; make_readonly has no effect; up to two pages of the alignment padding are never handed back."
  },
  {
   "property": "C60",
   "status": "partial",
   "theorems": [
    "C60_boot_partial",
    "C60_unmapped_refuted",
    "C60_guard_refuted"
   ],
   "note": "Proved for descriptors that do not start at 0 and do not touch the address of the interrupt controller, kernel space for the six types the code lists. Refuted: memory at 0, memory that ends exactly where the controller begins, and kernel space for the other types are not mapped; the guard page can be read by the kernel and is writable 1:1."
  },
  {
   "property": "C61",
   "status": "partial",
   "theorems": [
    "C61_numbering_partial",
    "C61_numbering_refuted",
    "C61_owner_partial",
    "C61_affinity",
    "C61_owner_refuted",
    "C61_free_partial",
    "C61_free_refuted",
    "C61_blocks",
    "C61_alloc_partial",
    "C61_alloc_refuted",
    "C61_align_refuted",
    "C61_transport"
   ],
   "note": "Proved in full: the queues of the transport, disjointness of blocks under every interleaving, membership by affinity. Guarded: numbering needs distinct device numbers, the owner and freeing need that no device ends at the address, allocation succeeds for one thread at a time. Refuted: the same slot on two buses, the address one past a device, memory freed just behind a device, two threads allocating at once, alignment."
  },
  {
   "property": "C62",
   "status": "partial",
   "theorems": [
    "C62_returns_only_after_flush_partial",
    "C62_can_complete_partial",
    "C62_merged_doorbells_refuted",
    "C62_full_queue_refuted",
    "C62_early_return_refuted"
   ],
   "note": "Safety for every run: a returned call means every named core acknowledged an object made after the call began, and has flushed if it left the kernel. A call alone can always run to its end. Refuted: two callers whose doorbells merge into one interrupt leave one of them waiting forever; 61 calls in flight to one machine panic; a call can return before a core that acknowledged has flushed. Missing: a fair schedule always completes (false as shown)."
  },
  {
   "property": "C63",
   "status": "partial",
   "theorems": [
    "C63_no_lost_wakeup_partial",
    "C63_unpark_first_partial",
    "C63_returns_only_when_unparked_partial",
    "C63_others_undisturbed_partial",
    "C63_no_panic_partial",
    "C63_stray_return_refuted",
    "C63_others_disturbed_refuted",
    "C63_exit_refuted",
    "C63_spawn_race_refuted",
    "C63_timed_refuted",
    "C63_unknown_refuted"
   ],
   "note": "No wake-up is lost once the creator of a thread has noted its thread id. If every unpark is used before the next one, park returns only after an unpark, other waits are undisturbed and nothing panics (untimed parks, known threads). Refuted: the marks PARKED and UNPARK are the same number, so a second unpark leaves a stray wake-up, which ends a later park or any other wait and panics a thread that exits; an unpark before the creator has noted the thread id wakes thread 0 instead; timed parks and unknown ids panic."
  },
  {
   "property": "C64",
   "status": "partial",
   "theorems": [
    "C64_settings_partial",
    "C64_unknown_refused_partial",
    "C64_any_line",
    "C64_one_argument_partial",
    "C64_arguments_reversed_partial",
    "C64_argv_refuted",
    "C64_reserved_value_refuted",
    "C64_quoted_mode_refuted",
    "C64_bad_value_refuted",
    "C64_path_value_refuted",
    "C64_escape_refuted"
   ],
   "note": "Proved for every line of settings whose bare values are no reserved words and whose quoted values hold no quote or backslash. Missing: the refuted cases (order of argv, reserved words, quoted modes, bad values, paths, escapes). The lexer that logos generates is modelled by its longest-match contract."
  },
  {
   "property": "C65",
   "status": "partial",
   "theorems": [
    "C65_process_info_partial",
    "C65_process_info_error",
    "C65_long_command_line_refuted",
    "C65_threads_partial",
    "C65_many_threads_refuted",
    "C65_rack_threads_partial",
    "C65_rack_many_threads_refuted"
   ],
   "note": "Exact results are proved up to 127 bytes of command lines, 511 threads on one machine and 203 on a rack. Missing: beyond the buffers the calls panic or fail (refuted). serde_cbor and abomonation are modelled for the types sent; the copy to user space (C11, C12) and the transport (C42) appear as their outcomes."
  },
  {
   "property": "C66",
   "status": "partial",
   "theorems": [
    "C66_mutex_reacquired",
    "C66_discipline",
    "C66_no_early_return_partial",
    "C66_no_lost_signal_partial",
    "C66_woken_is_runnable_partial",
    "C66_no_panic_partial",
    "C66_unlocked_signal_refuted",
    "C66_time_limit_swallows_signal_refuted",
    "C66_time_limit_stray_refuted",
    "C66_time_limit_early_return_refuted",
    "C66_foreign_signal_refuted"
   ],
   "note": "Guarded by: waits have no time limit, accesses to the list of waiters do not overlap (a single core, or signal and broadcast called under the mutex) and nobody signals while another thread holds the mutex. The mutex is held again at the end of a wait in every run. Refuted without the guards: two signals without the mutex wake the same waiter and lose the other; a waiter whose time limit has passed swallows a signal; a left-over timer ends a later, unrelated wait; a signal while another thread holds the mutex fails an assertion."
  },
  {
   "property": "C67",
   "status": "partial",
   "theorems": [
    "C67_points_partial",
    "C67_quiet_inside",
    "C67_reason_partial",
    "C67_read_memory",
    "C67_write_memory_partial",
    "C67_registers_partial",
    "C67_registers_read_back_partial",
    "C67_change_zeroes_fs_refuted",
    "C67_st_refuted",
    "C67_gs_panics_refuted",
    "C67_read_watch_refuted",
    "C67_watch_size_refuted",
    "C67_remove_other_refuted",
    "C67_stale_bit_refuted",
    "C67_two_at_once_refuted",
    "C67_failed_write_refuted"
   ],
   "note": "Points and reasons are guarded by: watchpoints have a size of 1, 2, 4 or 8, are aligned to it, are not for reads only and no two different ones are at one address; the processor sets only the dr6 bits of enabled registers. Registers are guarded by fs being 0. Reading memory and silence inside the debugger hold without guard. Refuted without the guards: see the theorems; a failed write leaves the bytes before the first page it may not write."
  },
  {
   "property": "C68",
   "status": "partial",
   "theorems": [
    "C68_own_variables_partial",
    "C68_kernel_variables_partial",
    "C68_alignment_partial",
    "C68_kernel_alignment_partial",
    "C68_size_refuted",
    "C68_kernel_size_refuted",
    "C68_kernel_start_refuted",
    "C68_control_block_refuted"
   ],
   "note": "Guarded by the size of the template being a multiple of its alignment (and for the kernel a positive multiple of 8). Without it, variables are found before the block: wrong values and stores to memory of others; the kernel panics at boot for sizes that are no multiple of 8 or 0; the control block of a user thread is unaligned. Allocation failure, the stack of a thread and the fields of the control block other than self and plain bytes are not modelled."
  },
  {
   "property": "C69",
   "status": "partial",
   "theorems": [
    "C69_unnoticed_partial",
    "C69_system_call",
    "C69_entry_not_interrupted",
    "C69_wrapper_partial",
    "C69_start_partial",
    "C69_wrapper_refuted",
    "C69_debug_exception_refuted",
    "C69_debugger_line_refuted",
    "C69_kernel_debug_refuted",
    "C69_fault_stops_refuted",
    "C69_int_stops_refuted",
    "C69_forbidden_write_loops_refuted",
    "C69_leftovers_refuted"
   ],
   "note": "Proved for the vectors of timer, work request, shootdown (250-252), 249 on a client and page faults on a mapped page, for system calls as such and for wrappers with three results. Refuted: wrappers with one or two results do not declare that rdi and rsi change; debug exceptions lose rcx, r11 and flags; the debugger vector returns to user code in ring 0; a debug exception in the kernel returns to the kernel in ring 3; faults and int n stop the machine; a forbidden write repeats for ever; vector registers and fs leak into new programs and cores. Upcalls are C70. Stacks are lists of words; nested exceptions inside isr.S are not modelled."
  },
  {
   "property": "C70",
   "status": "partial",
   "theorems": [
    "C70_delivered_partial",
    "C70_disabled_refuted",
    "C70_never_again_refuted",
    "C70_idle_core_refuted",
    "C70_handler_fs_refuted",
    "C70_fifth_refuted",
    "C70_inside_resume_refuted",
    "C70_no_critical_section_refuted"
   ],
   "note": "Proved for one interrupt while upcalls are enabled, with any handler. Refuted: while disabled an interrupt is forgotten and its victim loses rcx, r11 and flags; one inside resume switches upcalls off for ever, and loses rcx; without a declared critical section it destroys the saved state of the program; on an idle core it panics the kernel; the handler runs with the fs of the kernel; the queue of the program holds four."
  },
  {
   "property": "C71",
   "status": "partial",
   "theorems": [
    "C71_bus_address_partial",
    "C71_dma_memory_partial",
    "C71_config_partial",
    "C71_interrupt_partial",
    "C71_route_partial",
    "C71_stale_refuted",
    "C71_unmapped_refuted",
    "C71_alignment_refuted",
    "C71_free_refuted",
    "C71_two_processes_refuted",
    "C71_two_devices_refuted",
    "C71_early_interrupt_refuted",
    "C71_route_refuted"
   ],
   "note": "Proved: bus addresses while pages asked for stay mapped, DMA memory for alignments up to the page size used, configuration accesses of one process, interrupts with one device on lines of the first I/O APIC and core 0. Refuted: a page that was unmapped and mapped again gives the old bus address; alignment is ignored; freed DMA memory is lost; two processes mix up registers; with two devices the handler of the second runs for both; an interrupt before its handler panics; core and other lines are ignored. Device registers with effects on reading, and the rack shortcut, are not modelled."
  },
  {
   "property": "C72",
   "status": "partial",
   "theorems": [
    "C72_own_arguments_partial",
    "C72_one_at_a_time_partial",
    "C72_replica_partial",
    "C72_progress_partial",
    "C72_stacks",
    "C72_page_table_refuted",
    "C72_null_stack_refuted",
    "C72_lost_startup_refuted",
    "C72_slow_core_refuted",
    "C72_node_numbers_refuted"
   ],
   "note": "Proved for page tables below 4 GiB and while memory for stacks lasts. Refuted: with a page table above 4 GiB the core loads half of the address; OwnedStack::new does not look at the null pointer, so two cores share addresses nobody allocated; the wait between INIT and STARTUP ends at once, so STARTUP can be lost; a core that comes up between the look at the flag and the look at the clock still stops the system; nodes numbered with gaps panic. Sequentially consistent memory is assumed (the code has a TODO for a fence)."
  },
  {
   "property": "C73",
   "status": "proved",
   "theorems": [
    "C73_one_owner",
    "C73_alone",
    "C73_returns",
    "C73_table",
    "C73_many_devices_refuted",
    "C73_split_refuted"
   ],
   "note": "Outside of the claim: with 25 devices the kernel panics when it makes the table; claim_devices is not one step, so two racing calls for the same kind can each get a part of the devices. The allocation inside claim_devices is taken to succeed."
  },
  {
   "property": "C74",
   "status": "partial",
   "theorems": [
    "C74_virtual_cpus",
    "C74_waiting",
    "C74_returns",
    "C74_never_waits_partial",
    "C74_spin_deadlock_refuted",
    "C74_plain_mutex_refuted"
   ],
   "note": "Partial: 'never waits with a virtual CPU' is proved when no mutex is a spin mutex and for the calls that do not end in nowrap. It is false for a spin mutex that is not a kernel mutex: after a wait the mutex is taken before the virtual CPU, so the two threads of the witness wait for each other for ever. A mutex with neither flag can not be entered: the assertion fails. The upcalls into the C code of the library OS are modelled after what the rump manual says of them (they are not in the repository)."
  },
  {
   "property": "C75",
   "status": "partial",
   "theorems": [
    "C75_order",
    "C75_calls",
    "C75_table_partial",
    "C75_calls_meant_partial",
    "C75_starts",
    "C75_answered",
    "C75_release_core_refuted",
    "C75_extra_core_refuted"
   ],
   "note": "Partial: the call ReleaseCore is registered with the handler of RequestCore (controller.rs:214), so 'by the function it is meant for' is proved for all other calls. With a controller that has one core more than there are client machines the start can hang for ever (witness); the theorems are for one controller core per client. Messages are modelled by their kind only; C55 has the bytes."
  },
  {
   "property": "C76",
   "status": "partial",
   "theorems": [
    "C76_histories_partial",
    "C76_write_only_refuted",
    "C76_exclusive_refuted",
    "C76_sequential_read_refuted",
    "C76_buffers_refuted"
   ],
   "note": "Partial: proved for modes read-only and read-write (with and without create), one buffer that is not empty, and all offsets except a read at the position. False outside of that: a file opened for writing only can be read, exclusive creation succeeds on a file that exists, every read at the position of the file fails, several buffers stop the program, an empty buffer is an error, and block I/O and sync are not implemented. Built on the kernel's file system of C01; the kernel does not stop or run out of memory."
  },
  {
   "property": "C77",
   "status": "partial",
   "theorems": [
    "C77_order",
    "C77_shown_partial",
    "C77_lines_partial",
    "C77_controller_partial",
    "C77_returns",
    "C77_strings_work",
    "C77_putchar_partial",
    "C77_shown_refuted",
    "C77_exit_refuted",
    "C77_lines_refuted",
    "C77_long_line_refuted",
    "C77_controller_refuted",
    "C77_empty_refuted",
    "C77_putchar_refuted"
   ],
   "note": "Order, completeness and return of calls are proved for all runs. Partial: text up to the first newline of a call is shown on return; lines are unmixed if the core prints at most one newline per call and its lines fit into the buffer; the controller gets the same text if what follows the first newline fits. False outside of that, with witnesses: a second line of one text stays in the buffer, text without newline is lost at exit, long lines and texts of several lines are mixed with other cores, the controller misses the first part of a long text, an empty string at address 1 stops the program, putchar turns bytes above 127 into two. The kernel's own output can fall into a line."
  },
  {
   "property": "C78",
   "status": "partial",
   "theorems": [
    "C78_contents",
    "C78_kernel",
    "C78_unknown",
    "C78_lookups_agree",
    "C78_found_partial",
    "C78_start_partial",
    "C78_symbols_partial",
    "C78_starts_partial",
    "C78_found_refuted",
    "C78_long_name_refuted",
    "C78_start_refuted",
    "C78_symbols_refuted",
    "C78_starts_refuted",
    "C78_emoji_refuted",
    "C78_empty_refuted"
   ],
   "note": "Proved for all volumes: each module is a file with its name and contents (no later load overwrites it), the first one is a kernel, unknown names are not found. Partial: every file is found if its directory has at most 32 entries with distinct names of at most 87 plain characters; both look-ups give the file if all files of the name agree; the machine starts if moreover there are at most 32 files. Refuted outside of that: directories use up the 32 rounds, a name of 88 characters hides all later files, two volumes with the same program mix data of one with code of the other, two volumes with more than 32 files, a name with a surrogate pair, or an empty file (if the firmware refuses zero pages) stop the boot."
  },
  {
   "property": "C79",
   "status": "partial",
   "theorems": [
    "C79_random",
    "C79_clock",
    "C79_clock_runs",
    "C79_random_count_partial",
    "C79_processors_partial",
    "C79_parameters_partial",
    "C79_random_count_refuted",
    "C79_parameters_refuted"
   ],
   "note": "Proved: successful requests for random bytes, both clocks (times below 2^63), and the fallback of 1. Partial: after a failure the reported count can be one less than the random bytes written (witness); parameters for buffers of 21 or 13 bytes and more, since a smaller one stops the program (witness). The number in the buffer is related to the command line through independent definitions of decimal text and its value."
  },
  {
   "property": "C80",
   "status": "partial",
   "theorems": [
    "C80_free",
    "C80_blocks",
    "C80_allocate",
    "C80_map",
    "C80_pci_partial",
    "C80_root_partial",
    "C80_pci_refuted",
    "C80_pci_panic_refuted",
    "C80_root_refuted"
   ],
   "note": "Proved: allocation, freeing and mapping. Partial: PCI registers at multiples of four, since a read at another address returns the bytes of the multiple below it (witness) and the last three stop the kernel (witness); root pointer when the firmware has tables of ACPI 2.0, since with those of ACPI 1.0 only it is null (witness)."
  },
  {
   "property": "C81",
   "status": "partial",
   "theorems": [
    "C81_refill_partial",
    "C81_distinct_partial",
    "C81_local_partial",
    "C81_refused_partial",
    "C81_affinity_refuted",
    "C81_controller_refuted",
    "C81_machine_refuted",
    "C81_machine_panic_refuted",
    "C81_nothing_refuted"
   ],
   "note": "Proved for a client that refills memory of its own machine, for a controller that refills a client's, and for the controller's own memory when its cache has the pages. Missing, with witnesses: after a refusal the core takes memory from its node; the controller stops when its own base pages run out; a client gets memory of its own machine for another one's, or stops; a request for nothing stops a client."
  },
  {
   "property": "C82",
   "status": "partial",
   "theorems": [
    "C82_area",
    "C82_stored",
    "C82_address",
    "C82_mac",
    "C82_interrupts",
    "C82_attach",
    "C82_link",
    "C82_queues_partial",
    "C82_queues_refuted",
    "C82_event_refuted"
   ],
   "note": "Proved except: the card finds the queues when there are as many transmit as receive queues, since the two numbers are exchanged in the shared record (witness with 2 and 1); the event interrupt is not the last one. The numbers are exchanged in reinit_shared_data. For every pair of numbers the records are where a card that was told the right numbers looks (C82_stored)."
  }
 ]
}