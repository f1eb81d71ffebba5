[
{"property": "C01", "status": "proved", "theorems": ["C01_returned_block", "C01_live_block", "C01_size_reported"], "note": "All configurations, kernels, histories and sizes. The first two also for programs that store anywhere."},
{"property": "C02", "status": "proved", "theorems": ["C02_table_is_scheme", "C02_rounding_exact_and_minimal", "C02_aligned_rounding_exact_and_minimal", "C02_waste_below_20_percent"], "note": "All sizes and all configurations; the classes are specified independently of the code's tables."},
{"property": "C03", "status": "proved", "theorems": ["C03_large_rounding_exact", "C03_large_rounding_bounds"], "note": "All 64-bit sizes above the slab classes."},
{"property": "C04", "status": "proved", "theorems": ["C04_overflow", "C04_zeroed"], "note": "All histories and products."},
{"property": "C05", "status": "proved", "theorems": ["C05_alignment"], "note": "All histories, all allocation functions."},
{"property": "C06", "status": "proved", "theorems": ["C06_rejected_iff_bad", "C06_no_side_effects"], "note": "All histories and alignments."},
{"property": "C07", "status": "proved", "theorems": ["C07_distinct", "C07_disjoint"], "note": "All histories, also when the program stores anywhere. Sequential histories of whole calls."},
{"property": "C08", "status": "proved", "theorems": ["C08_returns_only_if_live", "C08_invalid_aborts", "C08_valid_returns"], "note": "All 64-bit pointers in all reachable states; the first two whatever the program stored. The detected canary corruption is C10."},
{"property": "C09", "status": "proved", "theorems": ["C09_quarantine"], "note": "Counted in frees of the same arena and size class after the free of the block; the example reaches the bound."},
{"property": "C10", "status": "proved", "theorems": ["C10_detected", "C10_changed", "C10_written", "C10_no_false_alarm"], "note": "A damaged canary ends free and malloc_usable_size with the documented message, free_sized with a fatal error, and realloc cannot move the block; a changed byte among the eight suffices; the canary is in place and its first byte is zero whenever a block is handed out; programs that write only inside their blocks never see the message."},
{"property": "C11", "status": "proved", "theorems": ["C11_detected", "C11_no_false_alarm"], "note": "Any call that hands out a small block found every usable byte zero before the call; own-store programs never see the message."},
{"property": "C12", "status": "proved", "theorems": ["C12_fresh_memory_zero"], "note": "All histories of programs that store only inside their blocks."},
{"property": "C13", "status": "proved", "theorems": ["C13_freed_bytes_zero", "C13_others_unchanged"], "note": "All histories."},
{"property": "C14", "status": "proved", "theorems": ["C14_realloc_moves"], "note": "All live blocks realloc supports; for over-aligned small blocks see C16."},
{"property": "C15", "status": "proved", "theorems": ["C15_failed_realloc"], "note": "All histories."},
{"property": "C16", "status": "partial", "theorems": ["C16_realloc_accepts_any_live_refuted", "C16_realloc_returns_partial"], "note": "False of the code for blocks with alignment above the page size and a small size (refuted by a concrete history); proved for all other live blocks."},
{"property": "C17", "status": "proved", "theorems": ["C17_exact", "C17_small_sizes", "C17_stable", "C17_invalid_aborts", "C17_null_is_0", "C17_returns"], "note": "All histories."},
{"property": "C18", "status": "partial", "theorems": ["C18_small_exact", "C18_large_or_foreign", "C18_fast_upper_bound", "C18_null", "C18_zero_size_refuted"], "note": "Proved for small blocks of positive size, large blocks, foreign pointers and NULL; refuted for zero-size blocks (the code reads its bitmap out of bounds)."},
{"property": "C19", "status": "partial", "theorems": ["C19_free_sized_partial", "C19_zero_size_refuted", "C19_aligned_refuted"], "note": "Proved for blocks from malloc except zero-size blocks freed with more than 7*2^61 bytes; refuted there and for aligned blocks."},
{"property": "C20", "status": "proved", "theorems": ["C20_distinct", "C20_usable_size_0", "C20_never_accessible"], "note": "All histories, inaccessible for the rest of the process."},
{"property": "C21", "status": "partial", "theorems": ["C21_large_blocks_guarded", "C21_new_guards_bounded_partial", "C21_all_guards_bounded_partial", "C21_guards_from_a_former_size_partial", "C21_shrunk_guard_refuted", "C21_guard_slabs", "C21_class_regions_guarded"], "note": "Every live large block has guards of at least one page; a new one takes exactly its pages plus bounded guards; and in a history without realloc in place no address is mapped further from a held large block than the guard its size allows, blocks moved by realloc included, and every range kept in the quarantine is at most the threshold size plus its two guards and two pages long (kernel never answers ENOMEM). With realloc in place the guards are within the limit for some size the block has had since the program got it; the limit for the present size is refuted there: a block shrunk in place keeps the guard drawn for its first size."},
{"property": "C22", "status": "proved", "theorems": ["C22_one_size_per_address", "C22_areas_apart", "C22_one_part", "C22_own_arena", "C22_one_arena_per_address"], "note": "All histories of calls that do not overlap; both size classes and arenas."},
{"property": "C23", "status": "partial", "theorems": ["C23_finite_map", "C23_terminates", "C23_leftover_needs_refusal", "C23_finite_map_if_kernel_refuses_refuted"], "note": "Proved for all histories in which the kernel never refuses to discard a retired table; refuted without that condition: the code ignores that failure and stale entries reappear after the next growth."},
{"property": "C24", "status": "partial", "theorems": ["C24_freed_large_blocks_stay_reserved", "C24_freed_large_blocks_stay_inaccessible_partial", "C24_kernel_refuses_refuted"], "note": "Reservation (mapped, no live block inside, guards included) is proved for every kernel behaviour. That every access faults is proved under the assumption that the kernel never answered ENOMEM; without it the property is false of the code (free falls back to emptying the pages, h_malloc.c:979-981), which is the refuted theorem. Calls counted: frees of large blocks below the threshold, and every realloc of a large block."},
{"property": "C25", "status": "partial", "theorems": ["C25_failure_partial", "C25_errno_set_refuted"], "note": "Proved except when the table of large blocks is full: there malloc returns NULL without setting errno (refuted by a concrete history)."},
{"property": "C26", "status": "proved", "theorems": ["C26_never_continues", "C26_no_call_returns", "C26_mmap", "C26_mmap_fixed", "C26_munmap", "C26_mprotect_ro", "C26_mprotect_rw", "C26_mremap", "C26_madvise", "C26_getrandom"], "note": "Every call of the model (any state, any history): no call returns after consuming a memory-syscall answer other than success/ENOMEM or a failed getrandom; each wrapper raises the named fatal error at the failing call. getrandom EINTR is retried (model bounds retries by fuel)."},
{"property": "C27", "status": "partial", "theorems": ["C27_errno_preserved_partial"], "note": "Proved unless a signal interrupts getrandom while the generator is reseeded during free."},
{"property": "C28", "status": "partial", "theorems": ["C28_class", "C28_arena", "C28_slabs_counted", "C28_large_partial", "C28_total_partial", "C28_used_within_mapped", "C28_outside", "C28_info", "C28_nothing", "C28_options", "C28_large_refuted", "C28_large_wraps_refuted"], "note": "Proved for every history: per class, per arena and malloc_info rows. The large total is proved for programs that never ask for an alignment above the page size; for the others the code is wrong (two refutations)."},
{"property": "C29", "status": "proved", "theorems": ["C29_result", "C29_pages", "C29_early", "C29_nothing_cached", "C29_blocks_unchanged"], "note": "Slabs of the zero-size class have no memory behind them and are not cached with pages; malloc_trim skips them. The purge of quarantined blocks of extended classes that malloc_trim also tries is in the model and shown to harm nothing (C29_blocks_unchanged); that it takes place is not part of this property."},
{"property": "C30", "status": "proved", "theorems": ["C30_u16_in_range", "C30_u64_in_range"], "note": "Every reachable generator state, every entropy stream. Retry is the model's outcome for a draw rejected more often than an arbitrary bound."},
{"property": "C31", "status": "partial", "theorems": ["C31_u64_is_rejection_sampling", "C31_u64_counts", "C31_u64_unbiased", "C31_u16_never_rejects", "C31_u16_unbiased_refuted", "C31_u16_bias_bounded_partial"], "note": "64-bit draws are unbiased (proved). The 16-bit function is biased in the code (integer promotion makes its threshold 0): refuted, with a bound on the bias."},
{"property": "C32", "status": "proved", "theorems": ["C32_keystream_used_once"], "note": "All histories of requests, all entropy streams. Stream positions are counted without the wrap of the 64-bit block counter (2^70 bytes)."},
{"property": "C33", "status": "proved", "theorems": ["C33_keystream_equals_spec", "C33_consecutive_calls"], "note": "Equality with an independent specification for every key, nonce and length; published test vector as example."},
{"property": "C34", "status": "proved", "theorems": ["C34_division_exact", "C34_soft_division_exact"], "note": "Both widths, all divisors and numerators."},
{"property": "C35", "status": "proved", "theorems": ["C35_finds_free_slot", "C35_every_free_slot_possible"], "note": "Every bitmap with a free slot, every configuration with and without slot randomisation, every generator state."},
{"property": "C36", "status": "proved", "theorems": ["C36_new_tag", "C36_memory_tags", "C36_neighbours_differ", "C36_stale_pointer", "C36_packed_array"], "note": "MTE slot tagging over every history of one slab; the IRG instruction is assumed to answer a tag outside the exclusion mask when one exists"},
{"property": "C37", "status": "partial", "theorems": ["C37_blocks_partial", "C37_contents_partial", "C37_realloc_partial", "C37_calloc_partial", "C37_aborts_partial", "C37_double_free_partial", "C37_one_owner_partial", "C37_no_corruption_partial", "C37_aligned_refuted"], "note": "Every interleaving of critical sections, system calls and memory accesses of any number of threads. Correct programs (each block used by the thread that has it in hand; alignments above the page size only if the kernel never refuses with ENOMEM): blocks in hand are distinct, disjoint, accessible and keep their contents; realloc carries the contents over and calloc returns zeroed memory whatever other threads do during the call; only kernel failures abort. Reckless programs (free anything, store anywhere): frees of a pointer never exceed its allocations while no allocation runs; only the allocator's own aborts occur. Refuted for alignments above the page size when munmap fails with ENOMEM. Not covered: malloc_usable_size and malloc_object_size of a block other threads use at the same time, realloc and malloc_object_size by reckless programs (for the latter see C18)."},
{"property": "C38", "status": "partial", "theorems": ["C38_one_lock", "C38_one_lock_info", "C38_one_lock_bin_info", "C38_handlers", "C38_no_deadlock", "C38_exclusive", "C38_child", "C38_child_init_lock_refuted"], "note": "Deadlock freedom, lock discipline, handler order and the child's locks and generators are proved over the control-flow skeletons of all exported functions, for any number of threads, calls and schedules. The part about the child fails for the initialization lock, which no fork handler covers: C38_child_init_lock_refuted. Skeletons keep locking, sealing and data touches; loops and tests are nondeterministic."},
{"property": "C39", "status": "proved", "theorems": ["C39_once", "C39_alone", "C39_ready", "C39_fixed", "C39_index", "C39_index_used", "C39_before", "C22_own_arena"], "note": "Initialization happens once and the index of a thread is fixed and in range in every interleaving; calls before initialization abort (realloc of an absurd size fails before it looks at the pointer). C22_own_arena: the thread's small blocks lie in the arena of its index (calls that do not overlap)."},
{"property": "C40", "status": "partial", "theorems": ["C40_new_contract", "C40_delete_returns", "C40_aligned_sized_delete_refuted"], "note": "the operator new/delete family; the aligned sized delete contract is false of the code (refuted)"},
{"property": "C41", "status": "proved", "theorems": ["C41_bounded", "C41_returned"], "note": "The bound may only be exceeded after the kernel answered a memory call with ENOMEM."},
{"property": "C42", "status": "proved", "theorems": ["C42_pvalloc", "C42_valloc"], "note": "All histories and sizes."},
{"property": "C43", "status": "partial", "theorems": ["C43_exported_partial", "C43_malloc_info_partial", "C43_malloc_disable", "C43_malloc_enable", "C43_before_fork", "C43_after_fork_parent", "C43_after_fork_child", "C43_bin_info_refuted", "C43_malloc_info_refuted"], "note": "Proved for every path of all exported functions except two for which the claim is false of the code: mallinfo_bin_info exchanges seal and unseal, and malloc_info goes on without access when writing to the stream allocates."},
{"property": "C44", "status": "proved", "theorems": ["C44_accessible", "C44_zero", "C44_elsewhere"], "note": "Every byte of the area for small blocks, in every state a history of calls reaches."},
{"property": "C45", "status": "proved", "theorems": ["C45_valid_use", "C45_any_use"], "note": "All histories; realloc restricted to live blocks it supports, malloc_object_size to valid pointers."},
{"property": "C46", "status": "proved", "theorems": ["C46_complete_or_first_error", "C46_prefix_at_all_times", "C46_terminates", "C46_terminates_always_refuted"], "note": "termination needs write(2) not to return 0 for ever; without that condition refuted"},
{"property": "C47", "status": "proved", "theorems": ["C47_enters", "C47_reused_in_order", "C47_order", "C47_call", "C47_idle"], "note": "Emptied uncached slabs wait in the random array; a slab leaves the array only to join the end of the list, and leaves the list only at the front, when it is used."},
{"property": "C48", "status": "partial", "theorems": ["C48_realloc_validates_refuted", "C48_realloc_validates_partial", "C48_realloc_small_partial"], "note": "Refuted for dead pointers into the small area with a request of the same class; outside the small area realloc of a dead pointer always aborts; inside, it returns nothing but the dead pointer and changes nothing."},
{"property": "C49", "status": "partial", "theorems": ["C49_index_inside_partial", "C49_whole_array_partial", "C49_whole_array_refuted", "C49_free_slabs_refuted", "C49_region_size_refuted"], "note": "true for lengths between 1 and 65535 entries per class; the compile-time checks accept configurations for which it is false (refuted)"},
{"property": "C50", "status": "partial", "theorems": ["C50_nothing_before_the_first_request", "C50_address_space_accounted_partial", "C21_all_guards_bounded_partial", "C50_kernel_refuses_refuted"], "note": "Proved for every history in which the kernel never answers ENOMEM; without that the property fails (refuted). The guards counted with a held block are within the limit for its size unless realloc resized it in place. The sizes of the quarantined ranges are bounded by C21_all_guards_bounded_partial when realloc resized no block in place."},
{"property": "C51", "status": "proved", "theorems": ["C51_document", "C51_empty", "C51_options"], "note": "The text of malloc_info, for every history; numbers are those of C28 (the large total with its restriction). Writing to the stream is assumed to succeed."},
{"property": "C52", "status": "proved", "theorems": ["C52_blocks_fit", "C52_huge_requests_fail"], "note": "Every history and kernel behaviour; mmap is assumed to return addresses below 2^47 (DESIGN 3.3)."}
]
