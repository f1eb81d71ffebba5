# Formal model of hardened_malloc in Rocq (Coq 8.16.1)

## 1. Approach

The C code is modelled as total, computable Gallina functions over explicit
state.  Machine integers are unbounded `Z` with explicit reductions modulo
2^64 / 2^32 / 2^16 / 2^8 where the C code wraps.  Undefined behaviour, a
segmentation fault, `fatal_error()` and an endless loop are *distinct outcomes*
of the model (`fault`), so "does not crash" is a statement one can prove or refute.

Layers (files in `rocq/theories/`):

| layer | models | content |
|---|---|---|
| `M_*.v` | models only, no proofs | function-by-function translation, each definition cites file:lines |
| `S_*.v` | specifications | small definitions used only to state properties, independent of the model's helpers |
| `P_*.v` | proofs | lemmas and invariants |
| `T_*.v` | theorems | property theorems, each closed with `exact lemma`, then `Print Assumptions`, and a non-vacuity `Example` |

* **Operating system.** A page table (page -> inaccessible / read-write / unmapped), byte
  memory, and an arbitrary oracle answering every system call (success, ENOMEM,
  any other errno; the address chosen by mmap).  The kernel model guarantees only what
  POSIX/Linux guarantees: mmap(NULL) returns fresh unmapped pages, zero-filled; failed
  calls have no effect.  All theorems quantify over all oracles.
* **Randomness.** ChaCha8 with an arbitrary entropy oracle for `getrandom`.  Theorems
  quantify over all entropy, hence over all random choices.
* **Configuration.** A record of all build options; theorems quantify over every
  configuration accepted by the `static_assert`s (plus explicitly stated extra
  requirements); default.mk and light.mk are instances.
* **User program.** Arbitrary sequences of API calls with arbitrary arguments and of
  writes to any writable non-metadata byte (out-of-bounds writes, writes after free
  included).  "Well-behaved" programs are a stated restriction where the property needs it.
* **Concurrency.** Each API call is a program of atomic steps (one critical section or one
  system call per step); schedules interleave steps of any number of threads arbitrarily.

## 2. Properties: what is modelled, how it is proved

| id | model | proof method |
|---|---|---|
| C01 | allocation API over full state | state invariant + size-class arithmetic |
| C02 | size_classes tables, get_size_info | arithmetic proof for all sizes (finite class table by computation, sizes by lia) |
| C03 | get_large_size_class, page_align | arithmetic mod 2^64 |
| C04 | h_calloc | arithmetic + memory model |
| C05 | all allocation entry points | invariant (slab start/slot size), pages_aligned arithmetic |
| C06 | allocate_aligned & callers | bit-trick lemma (a-1)&a=0 iff power of two |
| C07 | full state machine | global invariant: disjointness of slots and regions |
| C08 | h_free over full state | iff-characterisation from invariant (both directions) |
| C09 | slab quarantine arrays | induction on history with a distance measure |
| C10 | canary code | content invariant for well-behaved programs + direct proof of detection |
| C11 | write_after_free_check | as C10 |
| C12, C13 | memory contents | content invariant |
| C14, C15 | h_realloc | case analysis of the regimes with memory frame lemmas |
| C16 | h_realloc | refutation: a reachable concrete execution reaches UB; positive theorem for the rest |
| C17 | h_malloc_usable_size | invariant |
| C18 | h_malloc_object_size | invariant; refutation for zero-size blocks |
| C19 | h_free_sized | invariant; refutation for over-aligned blocks |
| C20 | zero-size class | invariant on page protections |
| C21 | guards | invariant on page protections; what a new large block maps; each step keeps the guard of a region or draws one within the limit (history invariant, used with C50's accounting); entries of the quarantine bounded by the threshold and its guards (invariant over every call); refuted upper bound after a shrink in place |
| C22 | slab_size_class | arithmetic + invariant |
| C23 | regions_* | refinement of a finite map; probing invariant |
| C24 | region quarantine, page states | invariant: what waits in the quarantine is mapped, owned by nobody, and PROT_NONE while the kernel never said ENOMEM; the remaining wait of an entry drops by at most one per call |
| C25, C26 | oracle failures | by cases on oracle answers |
| C27 | errno | by cases on oracle answers |
| C28 | the statistics queries (M_Stats), counted from the trace (S_Stats) | invariant on the counters along histories; refutation for large blocks with alignments above the page size |
| C29 | malloc_trim (that it also purges quarantined blocks of extended classes is modelled, but not claimed) | invariant |
| C30, C31 | random.c | Lemire counting argument; refutation for the 16-bit bias |
| C32 | random.c | history induction on stream position |
| C33 | chacha.c | equality with an independently written specification |
| C34 | libdivide.h | arithmetic proof for generic width |
| C35 | bitmaps | word-level reasoning with Z.testbit |
| C36 | MTE tagging | separate model, induction on history |
| C37 | concurrent semantics: calls as sequences of atomic steps (critical sections, system calls, accesses to block memory), threads interleaved in any way | token invariant preserved by every step of every call; realloc and calloc also carry a map of known bytes through the steps; alignments above the page size only with a kernel that never refuses |
| C38 | lock model | lock-order argument on traces of the API functions |
| C39 | init | concurrent model of init |
| C40 | new.cc | interaction with an arbitrary handler |
| C41 | empty slab cache | invariant |
| C42 | pvalloc/valloc | arithmetic |
| C43 | sealing | trace model of every exported function |
| C44 | page protections | invariant |
| C45 | full model | consequence of the invariants: outcome is never UB/Segv |
| C46 | fatal_error/write_full | induction over write results |
| C47 | free-slab quarantine | history induction |
| C48 | h_realloc | refutation for same class; positive theorem otherwise |
| C49 | configuration | refutation by accepted configurations; positive theorem with the missing condition |
| C50 | page table of the kernel model against the allocator's tables | invariant: while the kernel has not answered ENOMEM every mapped page is initial, metadata (with its guard, fixed at initialisation), slab area, table entry or quarantined; refutation when munmap is refused |
| C51 | the text of malloc_info (M_Info) against a grammar of documents (S_Xml) | induction over arenas and classes; decimal numbers read back with the standard library's reader; numbers from C28 |
| C52 | addresses and sizes of live blocks | consequence of the history invariant |

## 3. Trusted base

### 3.1 Logic

* The kernel of Coq 8.16.1 (including its virtual machine: examples and refutations evaluate
  concrete programs with `vm_compute`).  No kernel check is switched off.
* `Print Assumptions` stands below every theorem of the `T_*.v` files and prints
  "Closed under the global context" for each of them: no theorem depends on an axiom.
* The theories contain no `Axiom`, `Parameter`, section-less `Variable`/`Hypothesis`,
  `Admitted` or `admit`, and define no functors or module types.
* Axioms present in loaded libraries but used by no theorem: the seven constants of
  `Coq.ssr.ssrunder.Under_rel` (`Under_rel`, `Under_relE`, `Under_rel_from_rel`, `Over_rel`,
  `over_rel`, `over_rel_done`, `under_rel_done`), which belong to the standard library and are
  loaded through `Lia`/`ZifyBool`.
* Libraries used: the standard library only.

### 3.2 What is modelled, function by function

| source | model | not modelled |
|---|---|---|
| `h_malloc.c` size classes, canary adjustment, large classes, guard sizes | `M_SizeClass.v` | |
| `h_malloc.c` slab metadata, bitmaps, slot choice, quarantines, `allocate_small`, `deallocate_small`, validity checks, `malloc_trim` per class, the counters of CONFIG_STATS | `M_Slab.v` | the `HAS_ARM_MTE` branches (`M_Mte.v` has them alone) |
| `h_malloc.c` table of large blocks, region quarantine, `allocate_large`, `deallocate_large` | `M_Region.v` | |
| `h_malloc.c` initialization, `h_malloc` ... `h_malloc_trim`, `h_realloc` in all branches | `M_Api.v` | `CONFIG_SELF_INIT` handlers of signals; `prctl` naming of mappings (`CONFIG_LABEL_MEMORY`), which has no effect on memory |
| sequences of calls and stores of a program | `M_Hist.v` | |
| interleaved calls of any number of threads | `M_Conc.v` | weak memory: accesses are sequentially consistent; errno per thread |
| locks, fork handlers, protection-key sealing, `malloc_disable`/`enable`, `mallinfo*`, `malloc_info` as control flow | `M_Flow.v` | data decisions: every test goes both ways |
| `memory.c`, `pages.c` | `M_OS.v` | |
| `random.c`, `chacha.c` | `M_Random.v`, `M_Chacha.v` | |
| `third_party/libdivide.h` (the two generators and dividers in use) | `M_Libdivide.v` | the other entry points of the library |
| `util.c` (`write_full`, `fatal_error`) | `M_Fatal.v` | the Android branch |
| `new.cc` | `M_New.v` | |
| `h_mallinfo2`, `h_malloc_info`, `h_mallinfo_arena_info`, `h_mallinfo_bin_info` and their bounds | `M_Stats.v`, `M_Info.v` (the text of malloc_info) | failures of the stream malloc_info writes to, the `struct mallinfo2` fields that are always 0 |
| `memtag.h`, slot tagging of `h_malloc.c` | `M_Mte.v` | the bytes cleared together with the tags |
| `config/*.mk`, the `static_assert`s | `M_Config.v` | |

Not modelled at all: `h_mallopt`, `h_malloc_get_state`, `h_malloc_set_state`,
`h_cfree` (an alias of free), `h_malloc_iterate` and `h_malloc_stats` (they do nothing or
report an error), the Android.bp build, the tests.

### 3.3 Assumptions in the model

* **Kernel** (`M_OS.v`).  Answers of `mmap`, `munmap`, `mprotect`, `madvise`, `mremap` and
  `getrandom` are arbitrary streams.  `mmap(NULL, ...)` returns whole unmapped pages below 2^47,
  zero-filled; a failing call changes nothing (for `mremap` with MREMAP_FIXED Linux may already
  have unmapped the destination: not modelled).  `madvise(MADV_DONTNEED)` zeroes the pages.
  Pages are 4096 bytes.
* **Other mappings.**  The rest of the process maps and unmaps memory only through the same
  page table before the first call; after it, pages belong to the allocator or do not change.
* **Memory** is a function from addresses to bytes; allocator metadata lives in its own pages
  and is represented by records, not bytes.  A store of the program into the structure that
  holds it ends the model's execution with the outcome `UB` (`store` in `M_Hist.v`), so such
  programs are outside the theorems.
* **Endless loops** are bounded: a loop that waits for a random value or retries an interrupted
  system call uses fuel and ends in the outcome `Retry`, which the theorems list as an outcome.
* **Table of large blocks** (`table_cleared`).  Most theorems cover executions in which the
  kernel never refused to discard a retired table: C23 shows that the code is wrong otherwise.
* **Concurrency** (`M_Conc.v`).  A critical section is one atomic step.  `T_C38.v` proves, over
  the control flow of every function, that protected data is used only under its lock and that
  the locks exclude each other; the mutex implementation itself is trusted.
* **Protection keys** (`M_Flow.v`).  `pkey_alloc` succeeds, a key switches access off and on for
  one thread.
* **Hardware tags** (`M_Mte.v`).  IRG yields a tag outside its exclusion mask when there is one.
* **Configuration.**  `usable_config g` is the conjunction of the `static_assert`s, of the values
  the `Makefile` accepts, and of the conditions C49 shows to be necessary and unchecked.

### 3.4 Reading guide

`properties.jsonl` has the English statements, `MANIFEST.json` the theorems and what is missing
for partial ones, `T_Cnn.v` the theorem statements with examples, `S_*.v` the vocabulary they
use, `seeded/LOG.jsonl` the wrong programs the theorems were tested against.

## 4. What the code does differently from what one would expect

Found while proving; each is a theorem named `..._refuted` or is stated beside the theorem that
excludes it.

1. `malloc_object_size` of a zero-size block reads its bitmap out of bounds (C18).
2. `get_random_u16_uniform` never rejects, so it is biased (C31).
3. The build accepts quarantine lengths and region sizes that break the allocator (C49).
4. `regions_grow` ignores a failed discard of the old table; stale entries reappear (C23).
5. `realloc` of a small block with an alignment above the page size aborts (C16).
6. `free_sized` and sized `operator delete` reject valid sizes of aligned blocks, and sizes of
   zero-size blocks that wrap (C19, C40).
7. The statistics count aligned blocks above the page size on free but not on allocation (C28).
8. `realloc` of an invalid small pointer to the same class is not checked (C48).
9. `mallinfo_bin_info` seals where it must unseal and the reverse; `malloc_info` goes on sealed if
   writing to the stream allocates (C43).
10. `write_full` loops if `write` returns 0 for ever (C46).
11. A free that reseeds its generator can change errno if a signal interrupts `getrandom` (C27).
12. With a full table of large blocks malloc returns NULL and does not set errno (C25).
13. `allocate_pages_aligned` can unmap another thread's block after a failed `munmap` (C37).
14. No fork handler covers the initialization lock (C38).
15. If the kernel refuses to map over a freed large block, the block is emptied but stays readable
    and writable while it is quarantined (C24).
16. A large block shrunk in place keeps the guard drawn for its first size, which can exceed what its
    present size allows (C21).
17. If the kernel refuses to unmap a freed block that bypasses the quarantine, or a range that leaves
    it, the address space is lost; a block that bypasses it even stays readable and writable (C50).
