(** Specification vocabulary for the statistics: counted from the trace of calls. *)
From Coq Require Import String ZArith List Bool.
From Verif Require Import M_Base M_Config M_SizeClass M_OS M_Random M_Slab M_Region M_Api M_Hist M_Stats S_SizeClass S_Slab S_Heap S_Class.
Import ListNotations.
Open Scope Z_scope.

(** [p] lies in the area of arena [a] and size class [k] *)
Definition in_area (g : config) (s : state) (a k p : Z) : bool :=
  (c_start (st_cls s a k) <=? p) && (p <? c_start (st_cls s a k) + CLASS_REGION_SIZE g).
Definition count {A} (f : A -> bool) (l : list A) : Z := Z.of_nat (length (filter f l)).
(** the number of live blocks of arena [a] and class [k], of pointers of that class handed
    out so far, and of frees in it *)
Definition live_in (g : config) (s : state) (a k : Z) (t : trace) : Z := count (fun b => in_area g s a k (fst b)) (live t).
Definition mallocs_in (g : config) (s : state) (a k : Z) (t : trace) : Z :=
  count (fun e => match handed_out e with Some p => in_area g s a k p | None => false end) t.
Definition frees_in (g : config) (s : state) (a k : Z) (t : trace) : Z :=
  count (fun e => match freed_by e with Some p => in_area g s a k p | None => false end) t.
(** the slabs in use: those with an allocated or quarantined slot, and those that are kept
    empty for reuse.  [n] is their number. *)
Definition slabs_in_use (c : size_class) (n : Z) : Prop :=
  exists l, NoDup l /\ (forall i, In i l <-> holds c i \/ cached c i) /\ n = Z.of_nat (length l).
(** [N a k] is the number of slabs in use in each arena and class *)
Definition slab_counts (g : config) (s : state) (N : Z -> Z -> Z) : Prop := forall a k, exists_class g a k -> slabs_in_use (st_cls s a k) (N a k).
Definition total (l : list Z) : Z := fold_right Z.add 0 l.
(** bytes of the slots of the live blocks of a class, of an arena, of all arenas *)
Definition class_used (g : config) (s : state) (t : trace) (a k : Z) : Z := live_in g s a k t * slot_size g k.
Definition arena_used (g : config) (s : state) (t : trace) (a : Z) : Z := total (map (class_used g s t a) (zrange 0 (N_SIZE_CLASSES g))).
Definition heap_used (g : config) (s : state) (t : trace) : Z := total (map (arena_used g s t) (zrange 0 (N_ARENA g))).
(** bytes of the slabs in use *)
Definition class_mapped (g : config) (N : Z -> Z -> Z) (a k : Z) : Z := N a k * slab_bytes g k.
Definition arena_mapped (g : config) (N : Z -> Z -> Z) (a : Z) : Z := total (map (class_mapped g N a) (zrange 0 (N_SIZE_CLASSES g))).
Definition heap_mapped (g : config) (N : Z -> Z -> Z) : Z := total (map (arena_mapped g N) (zrange 0 (N_ARENA g))).
(** the rows malloc_info prints for an arena *)
Definition row (g : config) (s : state) (t : trace) (N : Z -> Z -> Z) (a k : Z) : bin :=
  mkBin k (class_size g k) (mallocs_in g s a k t mod 2 ^ 64) (frees_in g s a k t mod 2 ^ 64) (class_mapped g N a k) (class_used g s t a k).
Definition blank_bin (b : bin) : bool := (b_nmalloc b =? 0) && (b_ndalloc b =? 0) && (b_slabs b =? 0) && (b_allocated b =? 0).
Definition rows (g : config) (s : state) (t : trace) (N : Z -> Z -> Z) (a : Z) : list bin :=
  filter (fun b => negb (blank_bin b)) (map (row g s t N a) (zrange 0 (N_SIZE_CLASSES g))).
(** the large blocks: those outside the area for small blocks *)
Definition large_blocks (s : state) (t : trace) : list Z :=
  filter (fun p => negb ((st_start s <=? p) && (p <? st_end s))) (map fst (live t)).
(** what malloc_usable_size says about a block, and the sum for the large blocks *)
Definition reported_size (g : config) (s : state) (p : Z) : Z :=
  match run (h_malloc_usable_size g p) s with Ok (n, _) => n | Fail _ => 0 end.
Definition large_used (g : config) (s : state) (t : trace) : Z := total (map (reported_size g s) (large_blocks s t)).
(** no block was asked for with an alignment above the page size *)
Definition ordinary (t : trace) : Prop := forall e, In e t -> alignment (e_op e) <= 4096.
(** the call returns [r] and changes nothing *)
Definition unchanged (s s' : state) : Prop :=
  st_os s' = st_os s /\ (forall a k, st_cls s' a k = st_cls s a k) /\ st_ra s' = st_ra s /\
  st_base s' = st_base s /\ st_start s' = st_start s /\ st_end s' = st_end s /\ st_ctr s' = st_ctr s /\ st_arena s' = st_arena s.
Definition reports {A} (s : state) (p : prog state A) (r : A) : Prop := exists s', run p s = Ok (r, s') /\ unchanged s s'.
