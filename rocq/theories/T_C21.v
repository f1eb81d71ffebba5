(** C21: guard pages around large blocks, slabs and size class regions. *)
From Coq Require Import String ZArith List Bool Lia.
From Verif Require Import M_Base M_Config M_SizeClass M_OS M_Slab M_Region M_Api M_Hist S_SizeClass S_Heap S_Class S_Quar S_Guard S_Leak
  P_Api3 P_Api4 P_Api5 P_Api6 P_Api7 P_Demo P_Refute P_Guard P_Demo6 P_Demo7 P_Leak P_Held.
Import ListNotations.
Open Scope Z_scope.

(** a live large block is directly preceded and followed by inaccessible pages that belong to no live block *)
Theorem C21_large_blocks_guarded : forall (g : config) (W : store_rule) (o : os) (t : trace) (s : state) (p : Z) (c : op) (n : Z),
  usable_config g = true -> history g W o t s ->
  In (p, c) (live t) -> ~ st_start s <= p < st_end s -> usable_size g s p n ->
  exists gd, 4096 <= gd /\ gd mod 4096 = 0 /\ guarded s (p - gd) p /\ guarded s (page_up (p + n)) (page_up (p + n) + gd) /\
    (forall q d m x, In (q, d) (live t) -> extent g s q d m -> q <= x < q + m ->
       ~ p - gd <= x < p /\ ~ page_up (p + n) <= x < page_up (p + n) + gd).
Proof. exact C21_large_l. Qed.
Print Assumptions C21_large_blocks_guarded.

(** a new large block takes address space that was not in use: its own pages and, on each side, the same number of
    inaccessible guard pages, at least one and at most what GUARD_SIZE_DIVISOR allows for its size.  The call maps
    nothing else and unmaps nothing.  Left out: realloc of a non-null pointer, which also gives back the old block; the
    next theorem covers it. *)
Theorem C21_new_guards_bounded_partial : forall (g : config) (W : store_rule) (o : os) (t : trace) (s : state) (tid : Z) (c : op) (a : ans) (s' : state) (p n : Z),
  usable_config g = true -> history g W o t s -> is_init s = true ->
  calls g W t s tid c a s' -> (releases c = None \/ releases c = Some 0) -> handed_out (mkEv tid c a) = Some p -> ~ in_small_area s' p -> usable_size g s' p n ->
  exists gd, 4096 <= gd <= guard_limit g n /\ gd mod 4096 = 0 /\
    guarded s' (p - gd) p /\ guarded s' (page_up (p + n)) (page_up (p + n) + gd) /\
    (forall x, p - gd <= x < page_up (p + n) + gd -> ~ mapped s x) /\
    (forall x, mapped s' x <-> mapped s x \/ p - gd <= x < page_up (p + n) + gd).
Proof. exact C21_new_large_l. Qed.
Print Assumptions C21_new_guards_bounded_partial.

(** The bound for all blocks at once, those that realloc moved included.  As long as no realloc has returned the pointer
    it was given, an address is mapped only if it was mapped before the program started, lies in one fixed range for
    the allocator's own data, lies in the area of the size classes, lies in one of the few inaccessible ranges of the
    quarantine, each no longer than a block of the largest size it takes with its guards (and a page on each side), or lies no further from a large block the program holds than the guard its size allows.  The kernel must not
    have answered "out of memory".  Missing: blocks whose size realloc changed in place, see the refutation below. *)
Theorem C21_all_guards_bounded_partial : forall (g : config) (W : store_rule) (o : os) (t : trace) (s : state),
  usable_config g = true -> history g W o t s -> is_init s = true ->
  exists lo hi, lo <= hi <= lo + page_up (sizeof_allocator_state g) + 2 * REAL_CLASS_REGION_SIZE g /\
    forall t' s', continues g W t s t' s' -> never_refused s' -> (forall p, ~ resized_in_place t' p) ->
    exists held,
      Z.of_nat (length held) <= REGION_QUARANTINE_RANDOM_LENGTH g + REGION_QUARANTINE_QUEUE_LENGTH g /\
      (forall x, in_ranges held x -> inaccessible s' x) /\
      (forall r, In r held -> snd r - fst r <= REGION_QUARANTINE_SKIP_THRESHOLD g + 2 * guard_limit g (REGION_QUARANTINE_SKIP_THRESHOLD g) + 8192) /\
      forall x, mapped s' x ->
        mapped (boot g o) x \/ lo <= x < hi \/ in_small_area s x \/ in_ranges held x \/
        exists p c n, In (p, c) (live t') /\ ~ in_small_area s' p /\ usable_size g s' p n /\
          p - guard_limit g n <= x < page_up (p + n) + guard_limit g n.
Proof. exact C21_tight_l. Qed.
Print Assumptions C21_all_guards_bounded_partial.

(** The same with realloc in place allowed: every mapped address outside the areas named lies no further from a large block the
    program holds than the guard for some size which that block has had since the program got it.  Missing: that the size is
    the present one, which is false, see the refutation below. *)
Theorem C21_guards_from_a_former_size_partial : forall (g : config) (W : store_rule) (o : os) (t : trace) (s : state),
  usable_config g = true -> history g W o t s -> is_init s = true ->
  exists lo hi, lo <= hi <= lo + page_up (sizeof_allocator_state g) + 2 * REAL_CLASS_REGION_SIZE g /\
    forall t' s', continues g W t s t' s' -> never_refused s' ->
    exists held,
      Z.of_nat (length held) <= REGION_QUARANTINE_RANDOM_LENGTH g + REGION_QUARANTINE_QUEUE_LENGTH g /\
      (forall x, in_ranges held x -> inaccessible s' x) /\
      forall x, mapped s' x ->
        mapped (boot g o) x \/ lo <= x < hi \/ in_small_area s x \/ in_ranges held x \/
        exists p c n n0, In (p, c) (live t') /\ ~ in_small_area s' p /\ usable_size g s' p n /\ once_of_size g W o t' s' p n0 /\
          p - guard_limit g n0 <= x < page_up (p + n) + guard_limit g n0.
Proof. exact C21_once_l. Qed.
Print Assumptions C21_guards_from_a_former_size_partial.

(** realloc that shrinks a large block in place leaves the guard before it as it was: the inaccessible bytes directly
    before the block, up to the first byte that is not mapped at all, are more than its present size allows *)
Theorem C21_shrunk_guard_refuted : exists (g : config) (o : os) (t : trace) (s : state) (p : Z) (c : op) (n gd : Z),
  usable_config g = true /\ history g (own_store g) o t s /\ In (p, c) (live t) /\ ~ in_small_area s p /\ usable_size g s p n /\
  guarded s (p - gd) p /\ ~ mapped s (p - gd - 1) /\ guard_limit g n < gd.
Proof. exact shrink_refutes. Qed.
Print Assumptions C21_shrunk_guard_refuted.

(** in the region of a size class ([c_start] is its first byte) every (GUARD_SLABS_INTERVAL+1)-th slab is inaccessible *)
Theorem C21_guard_slabs : forall (g : config) (W : store_rule) (o : os) (t : trace) (s : state) (a k x : Z),
  usable_config g = true -> history g W o t s -> is_init s = true ->
  0 <= a < N_ARENA g -> 0 <= k < N_SIZE_CLASSES g -> let c := st_cls s a k in
  c_start c <= x < c_start c + CLASS_REGION_SIZE g ->
  ((x - c_start c) / slab_size_of g k) mod (GUARD_SLABS_INTERVAL g + 1) = GUARD_SLABS_INTERVAL g -> inaccessible s x.
Proof. exact C21_slabs_l. Qed.
Print Assumptions C21_guard_slabs.

(** the page before and the page after the region of a size class are inaccessible *)
Theorem C21_class_regions_guarded : forall (g : config) (W : store_rule) (o : os) (t : trace) (s : state) (a k x : Z),
  usable_config g = true -> history g W o t s -> is_init s = true ->
  0 <= a < N_ARENA g -> 0 <= k < N_SIZE_CLASSES g -> let c := st_cls s a k in
  c_start c - 4096 <= x < c_start c \/ c_start c + CLASS_REGION_SIZE g <= x < c_start c + CLASS_REGION_SIZE g + 4096 ->
  inaccessible s x.
Proof. exact C21_classes_l. Qed.
Print Assumptions C21_class_regions_guarded.

Example C21_case :
  history g0 (own_store g0) o0 t1 s1 /\ is_init s1 = true /\ In (64424538112, OMalloc 200000) (live t1) /\ usable_size g0 s1 64424538112 229376 /\
  ~ st_start s1 <= 64424538112 < st_end s1 /\ accessible s1 64424538112 /\ inaccessible s1 (64424538112 - 1).
Proof.
  pose proof (demo1_looks (LOther (fun s => st_end s =? 25847398400)) ltac:(in_list)) as E2. cbn [looks] in E2.
  split; [exact demo1_history|]. split; [look1 (LOther is_init)|]. split; [cbn; tauto|]. split; [look1 (LUsable 64424538112 229376)|]. split; [lia|].
  split; [look1 (LRW 64424538112)|look1 (LNone (64424538112 - 1))].
Qed.

Example C21_new_case : exists s',
  history g0 (own_store g0) o0 t_large s_large /\ is_init s_large = true /\ calls g0 (own_store g0) t_large s_large 0 (OMalloc 400000) (APtr 51539640320) s' /\
  (releases (OMalloc 400000) = None \/ releases (OMalloc 400000) = Some 0) /\ handed_out (mkEv 0 (OMalloc 400000) (APtr 51539640320)) = Some 51539640320 /\
  ~ in_small_area s' 51539640320 /\ usable_size g0 s' 51539640320 458752.
Proof.
  destruct (large_ok (LCall 0 (OMalloc 400000) (APtr 51539640320)) ltac:(in_list)) as (s' & K). exists s'.
  split; [exact large_history|]. split; [exact (large_ok (LOther is_init) ltac:(in_list))|]. split; [exact K|]. split; [left; reflexivity|]. split; [reflexivity|].
  exact (after_ok _ _ _ _ _ (large_ok (LOther large_after) ltac:(in_list)) K).
Qed.

(** an allocator with two large blocks in use, and a history that goes on with frees of large blocks, one of which is
    then held in the quarantine; there is no realloc *)
Example C21_all_case :
  usable_config g0 = true /\ history g0 (own_store g0) o0 t8 s8 /\ is_init s8 = true /\ continues g0 (own_store g0) t8 s8 t10 s10 /\ never_refused s10 /\
  (forall p, ~ resized_in_place t10 p) /\ In (42949701632, OMalloc 200000) (live t8) /\ In (51539619840, OMalloc 150000) (live t8) /\
  inaccessible s10 42949701632 /\ ~ In 42949701632 (map fst (live t10)).
Proof.
  split; [reflexivity|]. split; [exact demo8_history|]. split; [exact s8_init|]. split; [exact t8_t10|].
  split; [exact (never_refusedb_ok _ (demo10_looks (LOther never_refusedb) ltac:(in_list)))|].
  split; [intros p (tid & n & H); cbn in H; intuition discriminate|]. split; [cbn; tauto|]. split; [cbn; tauto|]. split; [exact s10_held|]. cbn. intuition congruence.
Qed.

(** a history with a block that realloc shrank in place *)
Example C21_former_case :
  usable_config g0 = true /\ history g0 (own_store g0) o0 t_shrink s_shrink /\ is_init s_shrink = true /\
  continues g0 (own_store g0) t_shrink s_shrink t_shrink s_shrink /\ never_refused s_shrink /\ resized_in_place t_shrink 34360197120 /\
  usable_size g0 s_shrink 34360197120 163840.
Proof.
  split; [reflexivity|]. split; [exact shrink_history|]. split; [exact (shrink_ok (LOther is_init) ltac:(in_list))|]. split; [constructor|].
  split; [exact (shrink_unrefused _ (shrink_ok shrink_calm ltac:(in_list)))|]. split; [exists 1, 150000; left; reflexivity|exact (shrink_ok (LUsable 34360197120 163840) ltac:(in_list))].
Qed.
