#!/usr/bin/env python3
# Generates /verif/properties.jsonl (one JSON object per line).
import json
P = []
def p(id, title, statement, quantifier, why, anchors):
    P.append(dict(id=id, title=title, statement=statement, quantifier=quantifier,
                  why_tests_cant=why, anchors=anchors))

p("C01","A granted block is at least as large as requested",
  "If malloc, calloc, realloc, aligned_alloc, memalign, posix_memalign, valloc or pvalloc succeeds for a request of n bytes, malloc_usable_size of the returned pointer is at least n, and every byte of [p, p+usable) is readable and writable memory (n > 0).",
  "every request size, alignment, configuration, OS answer and prior history",
  "There are 2^64 sizes and unboundedly many histories; rounding/canary arithmetic errors sit at isolated boundaries.",
  ["h_malloc.c: get_size_info, adjust_size_for_canary, allocate_small, allocate_large, h_malloc_usable_size"])
p("C02","Size-class rounding is exact, minimal and wastes under 20%",
  "A small request of n bytes (after adding the canary) is rounded to the smallest size class that can hold it, the class chosen by arithmetic is the class in the table, and above 64 bytes internal waste is at most 20% of the class size.",
  "every size from 0 to the maximum slab size, in both the normal and extended class tables",
  "The arithmetic formula and the table are maintained separately; only a sweep over all sizes shows they agree.",
  ["h_malloc.c: size_classes, get_size_info, size_class_slots"])
p("C03","Large size rounding never under-allocates and reports overflow",
  "For a large request the rounded size is either 0, exactly when the true rounded value does not fit in 64 bits (and then the allocation fails with ENOMEM), or a value that is >= the request, a multiple of the page size and at most 25% larger (or within one page).",
  "every 64-bit size, both values of CONFIG_LARGE_SIZE_CLASSES",
  "Overflow happens only in the top eighth of the 64-bit range.",
  ["h_malloc.c: get_large_size_class, get_size_info, allocate_large; pages.h: page_align; util.h: align"])
p("C04","calloc never returns a block shorter than nmemb*size",
  "calloc(n, s) returns NULL with errno ENOMEM when n*s overflows size_t; otherwise it behaves as an allocation of exactly n*s bytes whose contents are all zero, even when freed memory is not zeroed (CONFIG_ZERO_ON_FREE=false) and previous owners wrote to it.",
  "every pair of 64-bit arguments, every configuration and history",
  "2^128 argument pairs and arbitrary previous contents.",
  ["h_malloc.c: h_calloc"])
p("C05","Alignment guarantees",
  "Every non-NULL pointer from malloc/calloc/realloc is 16-byte aligned, every pointer from aligned_alloc/memalign/posix_memalign is a multiple of the requested alignment, and valloc/pvalloc pointers are page aligned.",
  "every alignment (including above the page size), size and history",
  "Depends on slot sizes, slab placement and mmap placement for all slots and all kernel answers.",
  ["h_malloc.c: allocate_aligned, get_size_info_align; pages.c: allocate_pages_aligned"])
p("C06","Bad alignments are rejected without side effects",
  "posix_memalign fails with EINVAL exactly when the alignment is not a power of two or is below sizeof(void*); aligned_alloc/memalign fail with EINVAL exactly when it is not a power of two; a failing call leaves *memptr and all live blocks unchanged.",
  "every 64-bit alignment and size",
  "2^64 alignments.",
  ["h_malloc.c: allocate_aligned, h_posix_memalign, alloc_aligned_simple"])
p("C07","Live blocks never overlap",
  "At every moment of every history, the usable ranges of any two live allocations (returned and not yet freed) are disjoint, whatever their kind (small, large, aligned, zero-size, reallocated).",
  "every history of API calls, heap writes (even out of bounds), OS answers and random choices",
  "An overlap may require a specific sequence of frees, quarantine evictions, slab purges and hash-table growth.",
  ["h_malloc.c: allocate_small, deallocate_small, allocate_large, deallocate_large, h_realloc, regions_insert"])
p("C08","Every invalid free aborts; every valid free does not",
  "free(p) returns normally exactly when p is NULL or currently live (with an intact canary); for every other p (double free, interior, unaligned, never allocated, in a guard slab, in a gap, already purged, in quarantine, foreign) it aborts with a fatal error, even after arbitrary corruption of heap contents.",
  "every pointer value and every history, including arbitrary heap overwrites",
  "Tests sample a few bad pointers; the claim is about all 2^64 values in all states.",
  ["h_malloc.c: h_free, deallocate_small, get_metadata, deallocate_large, regions_find"])
p("C09","Freed small memory is delayed by the quarantine",
  "After free(p) of a small block with the slab quarantine enabled, no allocation returns p again until at least QL + (1 if the random stage is enabled) further frees in the same arena and size class have happened, where QL is the scaled queue length.",
  "every history and every random choice",
  "The bound must hold for the worst-case random draws.",
  ["h_malloc.c: deallocate_small (SLAB_QUARANTINE)"])
p("C10","Overwritten canaries are detected on free and only then",
  "If any of the 8 canary bytes after a live small block differs from the slab's canary value, free/realloc-move/malloc_usable_size of it aborts with 'canary corrupted'; a program that writes only inside the usable size never triggers that abort. The canary's lowest-address byte is zero.",
  "every block, overwrite pattern, history and canary value",
  "Depends on where every code path places and refreshes canaries.",
  ["h_malloc.c: set_canary, check_canary, set_slab_canary_value"])
p("C11","Write-after-free to a small block is detected at reuse",
  "With CONFIG_WRITE_AFTER_FREE_CHECK, if the bytes (canary excluded) of a free slot in a cached or partially used slab are not all zero when the slot is chosen for allocation, the allocation aborts; a program that never writes freed memory never sees this abort.",
  "every slot, byte value, history",
  "Needs all interleavings of free, corruption, purge and reuse.",
  ["h_malloc.c: write_after_free_check, allocate_small"])
p("C12","Fresh memory is zeroed",
  "With CONFIG_ZERO_ON_FREE, if the program writes only inside live blocks, all bytes of the usable range of a newly returned malloc block are zero (small and large).",
  "every history of well-behaved programs",
  "Leaks of old data may need specific reuse sequences.",
  ["h_malloc.c: deallocate_small memset, allocate_small, memory_map_fixed; pages.c"])
p("C13","free wipes small blocks immediately",
  "With CONFIG_ZERO_ON_FREE, right after free(p) of a small block (size > 0) every byte of its former usable range reads as zero, and no byte of any other live block has changed.",
  "every block and history",
  "Wrong length or address touches neighbouring slots only in some classes.",
  ["h_malloc.c: deallocate_small"])
p("C14","realloc preserves contents and frees exactly the old block",
  "realloc(p, n) of a live p that returns q: the first min(old usable size, n) bytes of q equal the old contents, q is live with usable size >= n, p is no longer live unless q = p, and no other live block changes.",
  "every old size, new size (small/large in all combinations, in-place, moved, mremap path) and history",
  "The four size regimes times boundary sizes times OS failures.",
  ["h_malloc.c: h_realloc"])
p("C15","A failed realloc leaves the old block intact",
  "If realloc(p, n) returns NULL, p is still live with the same size and contents.",
  "every history, every point at which the OS refuses memory",
  "Requires injecting failure at each system call of each path.",
  ["h_malloc.c: h_realloc"])
p("C16","realloc of over-aligned small blocks",
  "realloc accepts any live pointer, including one obtained by aligned_alloc/posix_memalign with alignment above the page size and a small size.",
  "every live pointer",
  "Only the combination (alignment > page, size <= max slab size, realloc to another size) reaches the bad path.",
  ["h_malloc.c: h_realloc line 1640, allocate_aligned line 1419"])
p("C17","malloc_usable_size is exact, stable and validates its argument",
  "For a live p malloc_usable_size(p) is the same value at every moment of the block's lifetime (until realloc), equals the class size minus the canary (0 for zero-size blocks) or the region size; for a non-live non-NULL p it aborts; for NULL it returns 0.",
  "every pointer and history",
  "As for free: all pointer values in all states.",
  ["h_malloc.c: h_malloc_usable_size, memory_corruption_check_small"])
p("C18","malloc_object_size is an upper bound and never misbehaves on valid pointers",
  "For a pointer to any byte of a live small block's usable range, malloc_object_size returns exactly the number of usable bytes from that byte to the end; for the start of a live large block its size; SIZE_MAX for foreign pointers; 0 for NULL; it never aborts or reads out of bounds for a live block, including zero-size blocks.",
  "every pointer into a live block, every history",
  "The zero-size class goes wrong only when the block is not in the first slab.",
  ["h_malloc.c: h_malloc_object_size, h_malloc_object_size_fast"])
p("C19","free_sized accepts the allocation size and rejects other classes",
  "free_sized(p, n) of a live block from malloc(m) aborts with a mismatch error exactly when n and m round to different size classes; with n = m it behaves as free(p). The same should hold for blocks from aligned allocation functions.",
  "every pair of sizes, every alignment, every history",
  "Pairs of sizes straddling class boundaries, and alignments changing the class.",
  ["h_malloc.c: h_free_sized, deallocate_small, deallocate_large; new.cc: operator delete"])
p("C20","Zero-size blocks are distinct and inaccessible",
  "malloc(0) (when it does not fail) returns a non-NULL pointer distinct from all live pointers, its usable size is 0, and its page is never readable or writable at any time.",
  "every history",
  "Must hold through slab recycling and purging.",
  ["h_malloc.c: allocate_small, alloc_metadata (non_zero_size)"])
p("C21","Guard pages around large blocks and slabs",
  "Each live large block is immediately preceded and followed by at least one and at most max(1, size/pages/divisor) inaccessible guard pages that belong to no other block; with CONFIG_GUARD_SLABS_INTERVAL=g at most g consecutive slabs are accessible, the next slab position is never accessible; each size-class region has at least one inaccessible page before and after it.",
  "every history, every random guard size",
  "Guard gaps can be lost in shrink/mremap paths.",
  ["pages.c: allocate_pages, allocate_pages_aligned; h_malloc.c: get_guard_size, alloc_metadata, init_slow_path"])
p("C22","Size-class and arena isolation",
  "An address inside the slab region only ever belongs to blocks of one arena and one size class for the whole life of the process, and large blocks never lie in the slab region or the allocator state.",
  "every history",
  "All addresses and all histories.",
  ["h_malloc.c: slab_size_class, init_slow_path, get_slab"])
p("C23","Large-block bookkeeping behaves like a finite map",
  "After any sequence of insertions, deletions, lookups and growths, lookup of an address returns exactly the size and guard recorded by its last insertion not followed by deletion, and all loops terminate.",
  "every sequence of operations, all addresses, all collision patterns",
  "Open addressing with backward-shift deletion fails only for particular clusters wrapping round the table.",
  ["h_malloc.c: regions_insert, regions_find, regions_delete, regions_grow; pages.h: hash_page"])
p("C24","Large-block quarantine keeps addresses reserved",
  "After free of a large block below the skip threshold its whole range including guards stays mapped inaccessible (any access faults, mmap cannot reuse it) until at least QLEN (+1 with the random stage) further quarantined frees.",
  "every history and random choice",
  "Worst-case draws.",
  ["h_malloc.c: regions_quarantine_deallocate_pages, deallocate_large"])
p("C25","Out of memory is reported cleanly",
  "When the OS refuses memory with ENOMEM at any system call, or a class region is full, the allocation functions return NULL (posix_memalign returns ENOMEM), errno is ENOMEM, all live blocks and their contents are unchanged and the allocator keeps working.",
  "every failure point of every operation in every history",
  "Failure injection at each syscall in each state.",
  ["h_malloc.c: alloc_metadata, allocate_small, allocate_large; pages.c; memory.c"])
p("C26","Unexpected OS errors abort",
  "A failing mmap/munmap/mprotect/mremap/madvise with an errno other than ENOMEM, and a failing getrandom, terminates the process with a fatal error instead of continuing.",
  "every syscall, every errno",
  "Error injection for every errno at every call.",
  ["memory.c; random.c: get_random_seed"])
p("C27","free preserves errno",
  "free(p) that returns normally leaves errno unchanged, even when the system calls it makes fail with ENOMEM.",
  "every history and OS answer",
  "Needs failure at specific calls.",
  ["h_malloc.c: h_free, deallocate_small (saved_errno)"])
p("C28","Statistics match the live blocks",
  "With CONFIG_STATS, mallinfo2/malloc_info/mallinfo_arena_info/mallinfo_bin_info report per class exactly the total class size of live blocks, the number of mallocs and frees, and the bytes of slabs in use; and for large blocks exactly the sum of live sizes.",
  "every history",
  "Drift appears only after particular sequences (aligned allocations, failed purges, trim).",
  ["h_malloc.c: stats_*, h_mallinfo2, h_malloc_info, h_mallinfo_arena_info, h_mallinfo_bin_info"])
p("C29","malloc_trim releases exactly the cached empty slabs and disturbs nothing",
  "malloc_trim returns 1 iff at least one cached empty slab was returned; if no OS call fails afterwards no empty slab is cached; contents, liveness and sizes of all live blocks are unchanged; later allocations still satisfy every other property.",
  "every history",
  "Interaction with quarantines and lists.",
  ["h_malloc.c: h_malloc_trim, enqueue_free_slab"])
p("C30","Random choices are in range",
  "Bounded random draws return a value below the bound for every bound > 0 (0 for bound 0), never index outside the arrays they select from, and terminate unless draws are rejected forever.",
  "every generator state and bound",
  "All 2^16/2^64 draws and bounds.",
  ["random.c: get_random_u16_uniform, get_random_u64_uniform; h_malloc.c callers"])
p("C31","Bounded draws are unbiased",
  "For a uniformly distributed raw draw, conditional on acceptance every value below the bound is equally likely (same number of raw draws), for the 64-bit and for the 16-bit function.",
  "every bound and result value",
  "Requires counting all 2^64 raw values.",
  ["random.c: get_random_u16_uniform, get_random_u64_uniform"])
p("C32","The CSPRNG output is the ChaCha8 keystream, used once, reseeded regularly",
  "Outputs are consecutive, never reused, in-order bytes of the ChaCha8 keystream of the seeds obtained from the OS (bytes may be skipped, never repeated), with at most 256 KiB of cached output drawn from one seed before reseeding.",
  "every sequence of requests",
  "Keystream reuse may need a particular mix of request sizes at the cache boundary.",
  ["random.c; chacha.c"])
p("C33","ChaCha8 implementation equals the specification",
  "For every key, nonce and byte count the produced bytes equal the ChaCha8 specification (8 rounds, 64-bit block counter starting at 0), and consecutive calls for multiples of 64 bytes produce consecutive keystream.",
  "every key, nonce, counter, length",
  "2^320 inputs; counter carry at 2^32 blocks.",
  ["chacha.c"])
p("C34","Multiplicative division is exact",
  "The precomputed-reciprocal divisions used to find slab and slot indices return exactly floor(n/d).",
  "every 64-bit (32-bit) numerator and non-zero divisor",
  "2^128 pairs; errors occur for isolated numerators.",
  ["third_party/libdivide.h: libdivide_u32_gen/do, libdivide_u64_gen/do, libdivide_128_div_64_to_64"])
p("C35","Slot selection finds a free slot, and can pick any of them",
  "Choosing a slot in a slab with a free slot terminates with a slot that is free and inside the slab for every random value, and with slot randomization every free slot is chosen for some random value.",
  "every bitmap state, every slot count used, every random value",
  "2^256 bitmaps.",
  ["h_malloc.c: get_free_slot, get_mask, has_free_slots"])
p("C36","Memory tags differ from neighbours and predecessor",
  "With MTE, a newly allocated slot's tag is never the reserved tag 0, never the slot's previous tag and never the current/previous tag of its left or right neighbour; a freed slot carries tag 0; updating one slot's tag leaves all others unchanged.",
  "every sequence of allocations/frees in a slab, every random tag choice",
  "All histories of 256 slots.",
  ["h_malloc.c: tag_and_clear_slab_slot; util.h: u4_arr_set/get; memtag.h"])
p("C37","Thread safety of allocation and deallocation",
  "Under every interleaving of threads (critical sections and system calls of different threads interleaved arbitrarily) live blocks never overlap, every block is handed to one thread only, a pointer freed twice concurrently aborts for one of the callers, and no allocator data structure is corrupted.",
  "every number of threads, every schedule",
  "Exponentially many schedules.",
  ["h_malloc.c: all functions using mutex_lock; allocate_large, deallocate_large, h_realloc"])
p("C38","Lock discipline and fork safety",
  "No API function can deadlock with another: outside the fork/disable handlers at most one allocator lock is held at a time, the handlers take all locks in one fixed order and release all; after fork the child's locks are free and its generators are reseeded.",
  "every schedule including fork at any point",
  "Deadlocks depend on schedules.",
  ["h_malloc.c: full_lock, full_unlock, post_fork_child, h_malloc_disable, h_malloc_enable"])
p("C39","Initialization happens once and arenas are always in range",
  "However many threads race to be first, initialization is performed once; every thread gets a fixed arena index below N_ARENA; calls that need an initialized allocator before initialization abort.",
  "every schedule of first calls, counter wrap-around",
  "Races and 2^32 threads.",
  ["h_malloc.c: init, init_slow_path, enforce_init"])
p("C40","operator new/delete follow the C++ contract",
  "operator new returns a non-null pointer or throws bad_alloc (never returns null); nothrow new returns null instead of throwing; the new-handler is called before each retry and only after a failure; sized delete is free_sized.",
  "every handler behaviour and allocation outcome sequence",
  "Unbounded retry sequences.",
  ["new.cc: new_impl, handle_out_of_memory"])
p("C41","Empty slab cache is bounded",
  "Per arena and size class the bytes of cached empty slabs never exceed the documented limit unless the OS refused a purge; beyond it slabs are returned as inaccessible zero pages.",
  "every history",
  "Needs long histories per class.",
  ["h_malloc.c: deallocate_small (empty_slabs_total), max_empty_slabs_total"])
p("C42","pvalloc/valloc rounding",
  "pvalloc(n) returns page-aligned memory with usable size >= n rounded up to a page, fails with ENOMEM when rounding overflows or n = 0; valloc(n) returns page-aligned memory of usable size >= n.",
  "every 64-bit size",
  "Overflow only at the top of the range.",
  ["h_malloc.c: h_pvalloc, h_valloc"])
p("C43","Allocator state is sealed outside allocator code",
  "With CONFIG_SEAL_METADATA every exported function touches allocator state only while access is enabled for the thread and returns with access disabled.",
  "every exported function, every path through it",
  "All early returns of all functions.",
  ["h_malloc.c: thread_unseal_metadata, thread_seal_metadata and all EXPORT functions"])
p("C44","A slab's address space is only used after it was made accessible, and purged slabs are inaccessible",
  "A page of a size-class region is accessible exactly when it belongs to a slab that holds an allocated/quarantined slot or is cached as empty; all other pages of the slab region fault on access and read as zero when next made accessible.",
  "every history",
  "All pages, all histories.",
  ["h_malloc.c: alloc_metadata, allocate_small, deallocate_small, h_malloc_trim"])
p("C45","The allocator itself never faults on valid use",
  "No sequence of API calls by a program that only frees/reallocs live pointers makes the allocator read or write inaccessible memory, index its tables out of bounds, divide by zero, or loop forever.",
  "every history",
  "Universal absence of undefined behaviour.",
  ["h_malloc.c (all)"])
p("C46","Fatal errors are reported completely",
  "fatal_error writes the complete message 'fatal allocator error: ' + s + newline to stderr, whatever sequence of short writes and EINTR the OS produces, stops writing at the first real error, and never returns.",
  "every sequence of write() results",
  "All partial-write patterns.",
  ["util.c: fatal_error, write_full"])
p("C47","Purged slabs are reused in randomized FIFO order",
  "A slab that was emptied and purged is not reused before it was displaced from the random array and all slabs displaced before it were reused.",
  "every history and random draw",
  "Ordering over histories.",
  ["h_malloc.c: enqueue_free_slab, allocate_small"])
p("C48","realloc validates the old pointer",
  "realloc of a non-NULL pointer that is not live aborts.",
  "every pointer value and history",
  "Only same-class requests bypass the check.",
  ["h_malloc.c: h_realloc line 1523-1527"])
p("C49","Configured random quarantine length is honoured",
  "For every configuration accepted by the compile-time checks, the random slab quarantine draws its slot from the whole configured array and the free-slab quarantine never indexes outside its array.",
  "every accepted configuration",
  "Configurations are compile-time; tests build two of them.",
  ["h_malloc.c: deallocate_small line 830-832, enqueue_free_slab line 754, static_asserts"])
p("C50","Address space is accounted for",
  "However long the program runs, every mapped address was mapped before the start, belongs to one fixed range of bounded length for the allocator's own data, to the area of the size classes, to a large block the program still holds or its guards, or to one of at most as many inaccessible ranges as the quarantine for large blocks has places. Freed large blocks are not leaked.",
  "every history, of any length, and every later state",
  "A leak shows only after unboundedly many calls, and on paths (table growth, aligned blocks, moves by realloc, failed calls) a test seldom takes.",
  ["h_malloc.c: regions_quarantine_deallocate_pages, deallocate_large, allocate_large, allocate_aligned, h_realloc, regions_grow, init_slow_path", "pages.c: allocate_pages, allocate_pages_aligned, deallocate_pages"])
p("C51","malloc_info writes a well-formed document with the true numbers",
  "malloc_info(0, stream) writes a well-formed XML document: properly nested elements, quoted attributes, no character that needs an escape. It has one heap element per arena with one bin element per size class ever used and a last heap element for the large blocks; read as decimal numbers its contents are the statistics of C28. Before the first allocation the document is an empty element. Other options return -1 with EINVAL and write nothing.",
  "every history and state, every configuration",
  "The document depends on which classes were ever used and on all counters; a test sees a few states.",
  ["h_malloc.c: h_malloc_info"])
p("C52","No block exceeds PTRDIFF_MAX or wraps around",
  "Every byte of a live block, up to malloc_usable_size, has a positive address below 2^48, so pointer differences within a block fit in ptrdiff_t and pointer arithmetic does not wrap. A request (for calloc: the mathematical product) of 2^48 bytes or more never returns a block, from any allocation function.",
  "every history, every call and size, every kernel behaviour",
  "Sizes and products near the limits of the word are too many to try, and results of rounding can wrap.",
  ["h_malloc.c: get_large_size_class, allocate_large, allocate_aligned, h_calloc, h_realloc, h_pvalloc", "pages.c: allocate_pages, allocate_pages_aligned"])

import os
out = os.path.join(os.path.dirname(os.path.abspath(__file__)), "..", "properties.jsonl")
with open(out, "w") as f:
    for x in P: f.write(json.dumps(x) + "\n")
print(len(P))
