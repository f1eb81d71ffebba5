{"id": "C01", "title": "A granted block is at least as large as requested", "statement": "If malloc, calloc, realloc, aligned_alloc, memalign, posix_memalign, valloc or pvalloc succeeds for a request of n bytes, malloc_usable_size of the returned pointer is at least n, and every byte of [p, p+usable) is readable and writable memory (n > 0).", "quantifier": "every request size, alignment, configuration, OS answer and prior history", "why_tests_cant": "There are 2^64 sizes and unboundedly many histories; rounding/canary arithmetic errors sit at isolated boundaries.", "anchors": ["h_malloc.c: get_size_info, adjust_size_for_canary, allocate_small, allocate_large, h_malloc_usable_size"]}
{"id": "C02", "title": "Size-class rounding is exact, minimal and wastes under 20%", "statement": "A small request of n bytes (after adding the canary) is rounded to the smallest size class that can hold it, the class chosen by arithmetic is the class in the table, and above 64 bytes internal waste is at most 20% of the class size.", "quantifier": "every size from 0 to the maximum slab size, in both the normal and extended class tables", "why_tests_cant": "The arithmetic formula and the table are maintained separately; only a sweep over all sizes shows they agree.", "anchors": ["h_malloc.c: size_classes, get_size_info, size_class_slots"]}
{"id": "C03", "title": "Large size rounding never under-allocates and reports overflow", "statement": "For a large request the rounded size is either 0, exactly when the true rounded value does not fit in 64 bits (and then the allocation fails with ENOMEM), or a value that is >= the request, a multiple of the page size and at most 25% larger (or within one page).", "quantifier": "every 64-bit size, both values of CONFIG_LARGE_SIZE_CLASSES", "why_tests_cant": "Overflow happens only in the top eighth of the 64-bit range.", "anchors": ["h_malloc.c: get_large_size_class, get_size_info, allocate_large; pages.h: page_align; util.h: align"]}
{"id": "C04", "title": "calloc never returns a block shorter than nmemb*size", "statement": "calloc(n, s) returns NULL with errno ENOMEM when n*s overflows size_t; otherwise it behaves as an allocation of exactly n*s bytes whose contents are all zero, even when freed memory is not zeroed (CONFIG_ZERO_ON_FREE=false) and previous owners wrote to it.", "quantifier": "every pair of 64-bit arguments, every configuration and history", "why_tests_cant": "2^128 argument pairs and arbitrary previous contents.", "anchors": ["h_malloc.c: h_calloc"]}
{"id": "C05", "title": "Alignment guarantees", "statement": "Every non-NULL pointer from malloc/calloc/realloc is 16-byte aligned, every pointer from aligned_alloc/memalign/posix_memalign is a multiple of the requested alignment, and valloc/pvalloc pointers are page aligned.", "quantifier": "every alignment (including above the page size), size and history", "why_tests_cant": "Depends on slot sizes, slab placement and mmap placement for all slots and all kernel answers.", "anchors": ["h_malloc.c: allocate_aligned, get_size_info_align; pages.c: allocate_pages_aligned"]}
{"id": "C06", "title": "Bad alignments are rejected without side effects", "statement": "posix_memalign fails with EINVAL exactly when the alignment is not a power of two or is below sizeof(void*); aligned_alloc/memalign fail with EINVAL exactly when it is not a power of two; a failing call leaves *memptr and all live blocks unchanged.", "quantifier": "every 64-bit alignment and size", "why_tests_cant": "2^64 alignments.", "anchors": ["h_malloc.c: allocate_aligned, h_posix_memalign, alloc_aligned_simple"]}
{"id": "C07", "title": "Live blocks never overlap", "statement": "At every moment of every history, the usable ranges of any two live allocations (returned and not yet freed) are disjoint, whatever their kind (small, large, aligned, zero-size, reallocated).", "quantifier": "every history of API calls, heap writes (even out of bounds), OS answers and random choices", "why_tests_cant": "An overlap may require a specific sequence of frees, quarantine evictions, slab purges and hash-table growth.", "anchors": ["h_malloc.c: allocate_small, deallocate_small, allocate_large, deallocate_large, h_realloc, regions_insert"]}
{"id": "C08", "title": "Every invalid free aborts; every valid free does not", "statement": "free(p) returns normally exactly when p is NULL or currently live (with an intact canary); for every other p (double free, interior, unaligned, never allocated, in a guard slab, in a gap, already purged, in quarantine, foreign) it aborts with a fatal error, even after arbitrary corruption of heap contents.", "quantifier": "every pointer value and every history, including arbitrary heap overwrites", "why_tests_cant": "Tests sample a few bad pointers; the claim is about all 2^64 values in all states.", "anchors": ["h_malloc.c: h_free, deallocate_small, get_metadata, deallocate_large, regions_find"]}
{"id": "C09", "title": "Freed small memory is delayed by the quarantine", "statement": "After free(p) of a small block with the slab quarantine enabled, no allocation returns p again until at least QL + (1 if the random stage is enabled) further frees in the same arena and size class have happened, where QL is the scaled queue length.", "quantifier": "every history and every random choice", "why_tests_cant": "The bound must hold for the worst-case random draws.", "anchors": ["h_malloc.c: deallocate_small (SLAB_QUARANTINE)"]}
{"id": "C10", "title": "Overwritten canaries are detected on free and only then", "statement": "If any of the 8 canary bytes after a live small block differs from the slab's canary value, free/realloc-move/malloc_usable_size of it aborts with 'canary corrupted'; a program that writes only inside the usable size never triggers that abort. The canary's lowest-address byte is zero.", "quantifier": "every block, overwrite pattern, history and canary value", "why_tests_cant": "Depends on where every code path places and refreshes canaries.", "anchors": ["h_malloc.c: set_canary, check_canary, set_slab_canary_value"]}
{"id": "C11", "title": "Write-after-free to a small block is detected at reuse", "statement": "With CONFIG_WRITE_AFTER_FREE_CHECK, if the bytes (canary excluded) of a free slot in a cached or partially used slab are not all zero when the slot is chosen for allocation, the allocation aborts; a program that never writes freed memory never sees this abort.", "quantifier": "every slot, byte value, history", "why_tests_cant": "Needs all interleavings of free, corruption, purge and reuse.", "anchors": ["h_malloc.c: write_after_free_check, allocate_small"]}
{"id": "C12", "title": "Fresh memory is zeroed", "statement": "With CONFIG_ZERO_ON_FREE, if the program writes only inside live blocks, all bytes of the usable range of a newly returned malloc block are zero (small and large).", "quantifier": "every history of well-behaved programs", "why_tests_cant": "Leaks of old data may need specific reuse sequences.", "anchors": ["h_malloc.c: deallocate_small memset, allocate_small, memory_map_fixed; pages.c"]}
{"id": "C13", "title": "free wipes small blocks immediately", "statement": "With CONFIG_ZERO_ON_FREE, right after free(p) of a small block (size > 0) every byte of its former usable range reads as zero, and no byte of any other live block has changed.", "quantifier": "every block and history", "why_tests_cant": "Wrong length or address touches neighbouring slots only in some classes.", "anchors": ["h_malloc.c: deallocate_small"]}
{"id": "C14", "title": "realloc preserves contents and frees exactly the old block", "statement": "realloc(p, n) of a live p that returns q: the first min(old usable size, n) bytes of q equal the old contents, q is live with usable size >= n, p is no longer live unless q = p, and no other live block changes.", "quantifier": "every old size, new size (small/large in all combinations, in-place, moved, mremap path) and history", "why_tests_cant": "The four size regimes times boundary sizes times OS failures.", "anchors": ["h_malloc.c: h_realloc"]}
{"id": "C15", "title": "A failed realloc leaves the old block intact", "statement": "If realloc(p, n) returns NULL, p is still live with the same size and contents.", "quantifier": "every history, every point at which the OS refuses memory", "why_tests_cant": "Requires injecting failure at each system call of each path.", "anchors": ["h_malloc.c: h_realloc"]}
{"id": "C16", "title": "realloc of over-aligned small blocks", "statement": "realloc accepts any live pointer, including one obtained by aligned_alloc/posix_memalign with alignment above the page size and a small size.", "quantifier": "every live pointer", "why_tests_cant": "Only the combination (alignment > page, size <= max slab size, realloc to another size) reaches the bad path.", "anchors": ["h_malloc.c: h_realloc line 1640, allocate_aligned line 1419"]}
{"id": "C17", "title": "malloc_usable_size is exact, stable and validates its argument", "statement": "For a live p malloc_usable_size(p) is the same value at every moment of the block's lifetime (until realloc), equals the class size minus the canary (0 for zero-size blocks) or the region size; for a non-live non-NULL p it aborts; for NULL it returns 0.", "quantifier": "every pointer and history", "why_tests_cant": "As for free: all pointer values in all states.", "anchors": ["h_malloc.c: h_malloc_usable_size, memory_corruption_check_small"]}
{"id": "C18", "title": "malloc_object_size is an upper bound and never misbehaves on valid pointers", "statement": "For a pointer to any byte of a live small block's usable range, malloc_object_size returns exactly the number of usable bytes from that byte to the end; for the start of a live large block its size; SIZE_MAX for foreign pointers; 0 for NULL; it never aborts or reads out of bounds for a live block, including zero-size blocks.", "quantifier": "every pointer into a live block, every history", "why_tests_cant": "The zero-size class goes wrong only when the block is not in the first slab.", "anchors": ["h_malloc.c: h_malloc_object_size, h_malloc_object_size_fast"]}
{"id": "C19", "title": "free_sized accepts the allocation size and rejects other classes", "statement": "free_sized(p, n) of a live block from malloc(m) aborts with a mismatch error exactly when n and m round to different size classes; with n = m it behaves as free(p). The same should hold for blocks from aligned allocation functions.", "quantifier": "every pair of sizes, every alignment, every history", "why_tests_cant": "Pairs of sizes straddling class boundaries, and alignments changing the class.", "anchors": ["h_malloc.c: h_free_sized, deallocate_small, deallocate_large; new.cc: operator delete"]}
{"id": "C20", "title": "Zero-size blocks are distinct and inaccessible", "statement": "malloc(0) (when it does not fail) returns a non-NULL pointer distinct from all live pointers, its usable size is 0, and its page is never readable or writable at any time.", "quantifier": "every history", "why_tests_cant": "Must hold through slab recycling and purging.", "anchors": ["h_malloc.c: allocate_small, alloc_metadata (non_zero_size)"]}
{"id": "C21", "title": "Guard pages around large blocks and slabs", "statement": "Each live large block is immediately preceded and followed by at least one and at most max(1, size/pages/divisor) inaccessible guard pages that belong to no other block; with CONFIG_GUARD_SLABS_INTERVAL=g at most g consecutive slabs are accessible, the next slab position is never accessible; each size-class region has at least one inaccessible page before and after it.", "quantifier": "every history, every random guard size", "why_tests_cant": "Guard gaps can be lost in shrink/mremap paths.", "anchors": ["pages.c: allocate_pages, allocate_pages_aligned; h_malloc.c: get_guard_size, alloc_metadata, init_slow_path"]}
{"id": "C22", "title": "Size-class and arena isolation", "statement": "An address inside the slab region only ever belongs to blocks of one arena and one size class for the whole life of the process, and large blocks never lie in the slab region or the allocator state.", "quantifier": "every history", "why_tests_cant": "All addresses and all histories.", "anchors": ["h_malloc.c: slab_size_class, init_slow_path, get_slab"]}
{"id": "C23", "title": "Large-block bookkeeping behaves like a finite map", "statement": "After any sequence of insertions, deletions, lookups and growths, lookup of an address returns exactly the size and guard recorded by its last insertion not followed by deletion, and all loops terminate.", "quantifier": "every sequence of operations, all addresses, all collision patterns", "why_tests_cant": "Open addressing with backward-shift deletion fails only for particular clusters wrapping round the table.", "anchors": ["h_malloc.c: regions_insert, regions_find, regions_delete, regions_grow; pages.h: hash_page"]}
{"id": "C24", "title": "Large-block quarantine keeps addresses reserved", "statement": "After free of a large block below the skip threshold its whole range including guards stays mapped inaccessible (any access faults, mmap cannot reuse it) until at least QLEN (+1 with the random stage) further quarantined frees.", "quantifier": "every history and random choice", "why_tests_cant": "Worst-case draws.", "anchors": ["h_malloc.c: regions_quarantine_deallocate_pages, deallocate_large"]}
{"id": "C25", "title": "Out of memory is reported cleanly", "statement": "When the OS refuses memory with ENOMEM at any system call, or a class region is full, the allocation functions return NULL (posix_memalign returns ENOMEM), errno is ENOMEM, all live blocks and their contents are unchanged and the allocator keeps working.", "quantifier": "every failure point of every operation in every history", "why_tests_cant": "Failure injection at each syscall in each state.", "anchors": ["h_malloc.c: alloc_metadata, allocate_small, allocate_large; pages.c; memory.c"]}
{"id": "C26", "title": "Unexpected OS errors abort", "statement": "A failing mmap/munmap/mprotect/mremap/madvise with an errno other than ENOMEM, and a failing getrandom, terminates the process with a fatal error instead of continuing.", "quantifier": "every syscall, every errno", "why_tests_cant": "Error injection for every errno at every call.", "anchors": ["memory.c; random.c: get_random_seed"]}
{"id": "C27", "title": "free preserves errno", "statement": "free(p) that returns normally leaves errno unchanged, even when the system calls it makes fail with ENOMEM.", "quantifier": "every history and OS answer", "why_tests_cant": "Needs failure at specific calls.", "anchors": ["h_malloc.c: h_free, deallocate_small (saved_errno)"]}
{"id": "C28", "title": "Statistics match the live blocks", "statement": "With CONFIG_STATS, mallinfo2/malloc_info/mallinfo_arena_info/mallinfo_bin_info report per class exactly the total class size of live blocks, the number of mallocs and frees, and the bytes of slabs in use; and for large blocks exactly the sum of live sizes.", "quantifier": "every history", "why_tests_cant": "Drift appears only after particular sequences (aligned allocations, failed purges, trim).", "anchors": ["h_malloc.c: stats_*, h_mallinfo2, h_malloc_info, h_mallinfo_arena_info, h_mallinfo_bin_info"]}
{"id": "C29", "title": "malloc_trim releases exactly the cached empty slabs and disturbs nothing", "statement": "malloc_trim returns 1 iff at least one cached empty slab was returned; if no OS call fails afterwards no empty slab is cached; contents, liveness and sizes of all live blocks are unchanged; later allocations still satisfy every other property.", "quantifier": "every history", "why_tests_cant": "Interaction with quarantines and lists.", "anchors": ["h_malloc.c: h_malloc_trim, enqueue_free_slab"]}
{"id": "C30", "title": "Random choices are in range", "statement": "Bounded random draws return a value below the bound for every bound > 0 (0 for bound 0), never index outside the arrays they select from, and terminate unless draws are rejected forever.", "quantifier": "every generator state and bound", "why_tests_cant": "All 2^16/2^64 draws and bounds.", "anchors": ["random.c: get_random_u16_uniform, get_random_u64_uniform; h_malloc.c callers"]}
{"id": "C31", "title": "Bounded draws are unbiased", "statement": "For a uniformly distributed raw draw, conditional on acceptance every value below the bound is equally likely (same number of raw draws), for the 64-bit and for the 16-bit function.", "quantifier": "every bound and result value", "why_tests_cant": "Requires counting all 2^64 raw values.", "anchors": ["random.c: get_random_u16_uniform, get_random_u64_uniform"]}
{"id": "C32", "title": "The CSPRNG output is the ChaCha8 keystream, used once, reseeded regularly", "statement": "Outputs are consecutive, never reused, in-order bytes of the ChaCha8 keystream of the seeds obtained from the OS (bytes may be skipped, never repeated), with at most 256 KiB of cached output drawn from one seed before reseeding.", "quantifier": "every sequence of requests", "why_tests_cant": "Keystream reuse may need a particular mix of request sizes at the cache boundary.", "anchors": ["random.c; chacha.c"]}
{"id": "C33", "title": "ChaCha8 implementation equals the specification", "statement": "For every key, nonce and byte count the produced bytes equal the ChaCha8 specification (8 rounds, 64-bit block counter starting at 0), and consecutive calls for multiples of 64 bytes produce consecutive keystream.", "quantifier": "every key, nonce, counter, length", "why_tests_cant": "2^320 inputs; counter carry at 2^32 blocks.", "anchors": ["chacha.c"]}
{"id": "C34", "title": "Multiplicative division is exact", "statement": "The precomputed-reciprocal divisions used to find slab and slot indices return exactly floor(n/d).", "quantifier": "every 64-bit (32-bit) numerator and non-zero divisor", "why_tests_cant": "2^128 pairs; errors occur for isolated numerators.", "anchors": ["third_party/libdivide.h: libdivide_u32_gen/do, libdivide_u64_gen/do, libdivide_128_div_64_to_64"]}
{"id": "C35", "title": "Slot selection finds a free slot, and can pick any of them", "statement": "Choosing a slot in a slab with a free slot terminates with a slot that is free and inside the slab for every random value, and with slot randomization every free slot is chosen for some random value.", "quantifier": "every bitmap state, every slot count used, every random value", "why_tests_cant": "2^256 bitmaps.", "anchors": ["h_malloc.c: get_free_slot, get_mask, has_free_slots"]}
{"id": "C36", "title": "Memory tags differ from neighbours and predecessor", "statement": "With MTE, a newly allocated slot's tag is never the reserved tag 0, never the slot's previous tag and never the current/previous tag of its left or right neighbour; a freed slot carries tag 0; updating one slot's tag leaves all others unchanged.", "quantifier": "every sequence of allocations/frees in a slab, every random tag choice", "why_tests_cant": "All histories of 256 slots.", "anchors": ["h_malloc.c: tag_and_clear_slab_slot; util.h: u4_arr_set/get; memtag.h"]}
{"id": "C37", "title": "Thread safety of allocation and deallocation", "statement": "Under every interleaving of threads (critical sections and system calls of different threads interleaved arbitrarily) live blocks never overlap, every block is handed to one thread only, a pointer freed twice concurrently aborts for one of the callers, and no allocator data structure is corrupted.", "quantifier": "every number of threads, every schedule", "why_tests_cant": "Exponentially many schedules.", "anchors": ["h_malloc.c: all functions using mutex_lock; allocate_large, deallocate_large, h_realloc"]}
{"id": "C38", "title": "Lock discipline and fork safety", "statement": "No API function can deadlock with another: outside the fork/disable handlers at most one allocator lock is held at a time, the handlers take all locks in one fixed order and release all; after fork the child's locks are free and its generators are reseeded.", "quantifier": "every schedule including fork at any point", "why_tests_cant": "Deadlocks depend on schedules.", "anchors": ["h_malloc.c: full_lock, full_unlock, post_fork_child, h_malloc_disable, h_malloc_enable"]}
{"id": "C39", "title": "Initialization happens once and arenas are always in range", "statement": "However many threads race to be first, initialization is performed once; every thread gets a fixed arena index below N_ARENA; calls that need an initialized allocator before initialization abort.", "quantifier": "every schedule of first calls, counter wrap-around", "why_tests_cant": "Races and 2^32 threads.", "anchors": ["h_malloc.c: init, init_slow_path, enforce_init"]}
{"id": "C40", "title": "operator new/delete follow the C++ contract", "statement": "operator new returns a non-null pointer or throws bad_alloc (never returns null); nothrow new returns null instead of throwing; the new-handler is called before each retry and only after a failure; sized delete is free_sized.", "quantifier": "every handler behaviour and allocation outcome sequence", "why_tests_cant": "Unbounded retry sequences.", "anchors": ["new.cc: new_impl, handle_out_of_memory"]}
{"id": "C41", "title": "Empty slab cache is bounded", "statement": "Per arena and size class the bytes of cached empty slabs never exceed the documented limit unless the OS refused a purge; beyond it slabs are returned as inaccessible zero pages.", "quantifier": "every history", "why_tests_cant": "Needs long histories per class.", "anchors": ["h_malloc.c: deallocate_small (empty_slabs_total), max_empty_slabs_total"]}
{"id": "C42", "title": "pvalloc/valloc rounding", "statement": "pvalloc(n) returns page-aligned memory with usable size >= n rounded up to a page, fails with ENOMEM when rounding overflows or n = 0; valloc(n) returns page-aligned memory of usable size >= n.", "quantifier": "every 64-bit size", "why_tests_cant": "Overflow only at the top of the range.", "anchors": ["h_malloc.c: h_pvalloc, h_valloc"]}
{"id": "C43", "title": "Allocator state is sealed outside allocator code", "statement": "With CONFIG_SEAL_METADATA every exported function touches allocator state only while access is enabled for the thread and returns with access disabled.", "quantifier": "every exported function, every path through it", "why_tests_cant": "All early returns of all functions.", "anchors": ["h_malloc.c: thread_unseal_metadata, thread_seal_metadata and all EXPORT functions"]}
{"id": "C44", "title": "A slab's address space is only used after it was made accessible, and purged slabs are inaccessible", "statement": "A page of a size-class region is accessible exactly when it belongs to a slab that holds an allocated/quarantined slot or is cached as empty; all other pages of the slab region fault on access and read as zero when next made accessible.", "quantifier": "every history", "why_tests_cant": "All pages, all histories.", "anchors": ["h_malloc.c: alloc_metadata, allocate_small, deallocate_small, h_malloc_trim"]}
{"id": "C45", "title": "The allocator itself never faults on valid use", "statement": "No sequence of API calls by a program that only frees/reallocs live pointers makes the allocator read or write inaccessible memory, index its tables out of bounds, divide by zero, or loop forever.", "quantifier": "every history", "why_tests_cant": "Universal absence of undefined behaviour.", "anchors": ["h_malloc.c (all)"]}
{"id": "C46", "title": "Fatal errors are reported completely", "statement": "fatal_error writes the complete message 'fatal allocator error: ' + s + newline to stderr, whatever sequence of short writes and EINTR the OS produces, stops writing at the first real error, and never returns.", "quantifier": "every sequence of write() results", "why_tests_cant": "All partial-write patterns.", "anchors": ["util.c: fatal_error, write_full"]}
{"id": "C47", "title": "Purged slabs are reused in randomized FIFO order", "statement": "A slab that was emptied and purged is not reused before it was displaced from the random array and all slabs displaced before it were reused.", "quantifier": "every history and random draw", "why_tests_cant": "Ordering over histories.", "anchors": ["h_malloc.c: enqueue_free_slab, allocate_small"]}
{"id": "C48", "title": "realloc validates the old pointer", "statement": "realloc of a non-NULL pointer that is not live aborts.", "quantifier": "every pointer value and history", "why_tests_cant": "Only same-class requests bypass the check.", "anchors": ["h_malloc.c: h_realloc line 1523-1527"]}
{"id": "C49", "title": "Configured random quarantine length is honoured", "statement": "For every configuration accepted by the compile-time checks, the random slab quarantine draws its slot from the whole configured array and the free-slab quarantine never indexes outside its array.", "quantifier": "every accepted configuration", "why_tests_cant": "Configurations are compile-time; tests build two of them.", "anchors": ["h_malloc.c: deallocate_small line 830-832, enqueue_free_slab line 754, static_asserts"]}
{"id": "C50", "title": "Address space is accounted for", "statement": "However long the program runs, every mapped address was mapped before the start, belongs to one fixed range of bounded length for the allocator's own data, to the area of the size classes, to a large block the program still holds or its guards, or to one of at most as many inaccessible ranges as the quarantine for large blocks has places. Freed large blocks are not leaked.", "quantifier": "every history, of any length, and every later state", "why_tests_cant": "A leak shows only after unboundedly many calls, and on paths (table growth, aligned blocks, moves by realloc, failed calls) a test seldom takes.", "anchors": ["h_malloc.c: regions_quarantine_deallocate_pages, deallocate_large, allocate_large, allocate_aligned, h_realloc, regions_grow, init_slow_path", "pages.c: allocate_pages, allocate_pages_aligned, deallocate_pages"]}
{"id": "C51", "title": "malloc_info writes a well-formed document with the true numbers", "statement": "malloc_info(0, stream) writes a well-formed XML document: properly nested elements, quoted attributes, no character that needs an escape. It has one heap element per arena with one bin element per size class ever used and a last heap element for the large blocks; read as decimal numbers its contents are the statistics of C28. Before the first allocation the document is an empty element. Other options return -1 with EINVAL and write nothing.", "quantifier": "every history and state, every configuration", "why_tests_cant": "The document depends on which classes were ever used and on all counters; a test sees a few states.", "anchors": ["h_malloc.c: h_malloc_info"]}
{"id": "C52", "title": "No block exceeds PTRDIFF_MAX or wraps around", "statement": "Every byte of a live block, up to malloc_usable_size, has a positive address below 2^48, so pointer differences within a block fit in ptrdiff_t and pointer arithmetic does not wrap. A request (for calloc: the mathematical product) of 2^48 bytes or more never returns a block, from any allocation function.", "quantifier": "every history, every call and size, every kernel behaviour", "why_tests_cant": "Sizes and products near the limits of the word are too many to try, and results of rounding can wrap.", "anchors": ["h_malloc.c: get_large_size_class, allocate_large, allocate_aligned, h_calloc, h_realloc, h_pvalloc", "pages.c: allocate_pages, allocate_pages_aligned"]}
