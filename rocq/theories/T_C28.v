(** C28: the statistics agree with the calls made. *)
From Coq Require Import String ZArith List Bool Lia.
From Verif Require Import M_Base M_Config M_SizeClass M_OS M_Slab M_Region M_Api M_Hist M_Stats S_SizeClass S_Slab S_Heap S_Class S_Stats
  P_Demo P_Demo5 P_Stats P_Stats2 P_Stats3.
Import ListNotations.
Open Scope Z_scope.

(** mallinfo_bin_info: bytes in live blocks of the class, calls that returned a block of the
    class, and blocks of the class freed (the two counters are 64-bit words) *)
Theorem C28_class : forall (g : config) (W : store_rule) (o : os) (t : trace) (s : state) (a k : Z),
  usable_config g = true -> STATS g = true -> history g W o t s -> is_init s = true -> exists_class g a k ->
  reports s (h_mallinfo_bin_info g a k) (mkInfo 0 (class_used g s t a k) (mallocs_in g s a k t mod 2 ^ 64) (frees_in g s a k t mod 2 ^ 64) 0 0).
Proof. exact C28_class_l. Qed.
Print Assumptions C28_class.

(** mallinfo_arena_info of an arena: bytes of the slabs in use, bytes in live blocks *)
Theorem C28_arena : forall (g : config) (W : store_rule) (o : os) (t : trace) (s : state) (N : Z -> Z -> Z) (a : Z),
  usable_config g = true -> STATS g = true -> history g W o t s -> is_init s = true -> slab_counts g s N -> 0 <= a < N_ARENA g ->
  reports s (h_mallinfo_arena_info g a) (mkInfo (arena_mapped g N a) 0 0 0 (arena_used g s t a) 0).
Proof. exact C28_arena_l. Qed.
Print Assumptions C28_arena.
(** the number of slabs in use is well defined *)
Theorem C28_slabs_counted : forall (g : config) (W : store_rule) (o : os) (t : trace) (s : state),
  usable_config g = true -> history g W o t s -> is_init s = true -> exists N, slab_counts g s N.
Proof. exact counts_exist. Qed.
Print Assumptions C28_slabs_counted.

(** mallinfo_arena_info of the last arena that mallinfo_narenas counts: the sum of the usable sizes of the live
    large blocks, if no block was asked for with an alignment above the page size *)
Theorem C28_large_partial : forall (g : config) (W : store_rule) (o : os) (t : trace) (s : state),
  usable_config g = true -> STATS g = true -> history g W o t s -> is_init s = true -> ordinary t ->
  reports s (h_mallinfo_arena_info g (h_mallinfo_narenas g - 1)) (mkInfo (large_used g s t) 0 (large_used g s t) 0 0 0).
Proof. exact C28_large_last. Qed.
Print Assumptions C28_large_partial.

(** mallinfo2: the total, the used and the unused bytes *)
Theorem C28_total_partial : forall (g : config) (W : store_rule) (o : os) (t : trace) (s : state) (N : Z -> Z -> Z),
  usable_config g = true -> STATS g = true -> history g W o t s -> is_init s = true -> slab_counts g s N -> ordinary t ->
  reports s (h_mallinfo2 g)
    (mkInfo (large_used g s t + heap_mapped g N) 0 (large_used g s t + heap_used g s t) (heap_mapped g N - heap_used g s t) 0 (large_used g s t + heap_mapped g N)).
Proof. exact C28_total_exact. Qed.
Print Assumptions C28_total_partial.

(** in a class, in an arena and in total the live blocks fit in the slabs in use, so the
    unused bytes above are never negative *)
Theorem C28_used_within_mapped : forall (g : config) (W : store_rule) (o : os) (t : trace) (s : state) (N : Z -> Z -> Z),
  usable_config g = true -> history g W o t s -> is_init s = true -> slab_counts g s N ->
  (forall a k, exists_class g a k -> class_used g s t a k <= class_mapped g N a k) /\ (forall a, 0 <= a < N_ARENA g -> arena_used g s t a <= arena_mapped g N a) /\ heap_used g s t <= heap_mapped g N.
Proof. exact used_le_mapped. Qed.
Print Assumptions C28_used_within_mapped.
(** arenas and bins that mallinfo_narenas and mallinfo_nbins do not count report zeros *)
Theorem C28_outside : forall (g : config) (s : state) (a k : Z),
  (h_mallinfo_narenas g <= a -> reports s (h_mallinfo_arena_info g a) info_zero) /\
  (h_mallinfo_narenas g - 1 <= a \/ h_mallinfo_nbins g <= k -> reports s (h_mallinfo_bin_info g a k) info_zero).
Proof. exact info_outside. Qed.
Print Assumptions C28_outside.

(** malloc_info: one row for every class that was ever used, and the large blocks *)
Theorem C28_info : forall (g : config) (W : store_rule) (o : os) (t : trace) (s : state) (N : Z -> Z -> Z),
  usable_config g = true -> STATS g = true -> history g W o t s -> is_init s = true -> slab_counts g s N ->
  exists L, reports s (h_malloc_info g 0) (0, Some (mkReport (map (fun a => (a, rows g s t N a)) (zrange 0 (N_ARENA g))) (Some L))) /\ (ordinary t -> L = large_used g s t).
Proof. exact C28_info_l. Qed.
Print Assumptions C28_info.

(** before the first allocation, or without CONFIG_STATS, everything is zero *)
Theorem C28_nothing : forall (g : config) (s : state) (a k : Z),
  is_init s = false \/ STATS g = false ->
  reports s (h_mallinfo2 g) info_zero /\ reports s (h_mallinfo_arena_info g a) info_zero /\ reports s (h_mallinfo_bin_info g a k) info_zero /\
  reports s (h_malloc_info g 0) (0, Some (mkReport [] None)).
Proof. exact info_early_l. Qed.
Print Assumptions C28_nothing.
Theorem C28_options : forall (g : config) (s : state) (options : Z), options <> 0 ->
  exists s', run (h_malloc_info g options) s = Ok ((-1, None), s') /\ errno (st_os s') = EINVAL.
Proof. exact info_options_l. Qed.
Print Assumptions C28_options.

(** A large block with an alignment above the page size is not counted when it is allocated
    and is subtracted when it is freed (h_malloc.c:1401-1445): the total is too small while
    it lives and wraps around afterwards. *)
Theorem C28_large_refuted : exists (g : config) (W : store_rule) (o : os) (t : trace) (s : state) (r : mallinfo),
  usable_config g = true /\ STATS g = true /\ history g W o t s /\ is_init s = true /\
  reports s (h_mallinfo_arena_info g (N_ARENA g)) r /\ hblkhd r = 0 /\ uordblks r = 0 /\ large_used g s t = 229376.
Proof. exact C28_uncounted. Qed.
Print Assumptions C28_large_refuted.
Theorem C28_large_wraps_refuted : exists (g : config) (W : store_rule) (o : os) (t : trace) (s : state) (r : mallinfo),
  usable_config g = true /\ STATS g = true /\ history g W o t s /\ is_init s = true /\
  reports s (h_mallinfo_arena_info g (N_ARENA g)) r /\ hblkhd r = 2 ^ 64 - 229376 /\ uordblks r = 2 ^ 64 - 229376 /\ large_used g s t = 0.
Proof. exact C28_wraps. Qed.
Print Assumptions C28_large_wraps_refuted.

(** ** A program that satisfies the hypotheses: three large blocks (one shrunk by realloc, one
    freed) and three small ones (one freed); the answers are not trivial *)
Example C28_case : usable_config g0 = true /\ STATS g0 = true /\ history g0 (own_store g0) o0 t5 s5 /\ is_init s5 = true /\ ordinary t5 /\ exists_class g0 0 7 /\
  reports s5 (h_mallinfo2 g0) (mkInfo 450560 0 442496 8064 0 450560) /\
  reports s5 (h_mallinfo_arena_info g0 0) (mkInfo 8192 0 0 0 128 0) /\
  reports s5 (h_mallinfo_arena_info g0 1) (mkInfo 442368 0 442368 0 0 0) /\
  reports s5 (h_mallinfo_bin_info g0 0 7) (mkInfo 0 112 2 1 0 0).
Proof. exact C28_example. Qed.
Example C28_case_nothing : is_init (boot g0 o0) = false.
Proof. reflexivity. Qed.
