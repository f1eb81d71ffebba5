(** The allocator state and the exported functions: h_malloc.c:60-89, 736-748,
    1185-1321, 1374-1865, 1877-1947.

    Each function is a program: a sequence of atomic actions, one per critical section
    (between mutex_lock and mutex_unlock) and one per system call or copy outside a
    critical section.  Not modelled here: pointer tags (M_Mte.v), the protection key
    (M_Flow.v), locks as objects (M_Flow.v: here a critical section is atomic). *)
From Coq Require Import String ZArith List Bool.
From Verif Require Import M_Base M_Config M_SizeClass M_Libdivide M_OS M_Chacha M_Random M_Slab M_Region.
Import ListNotations.
Open Scope Z_scope.

(** [ro] (h_malloc.c:70-89), the memory behind it, and the thread-local arena numbers
    (h_malloc.c:62-68) *)
Record state : Type := mkSt {
  st_os : os;
  st_cls : Z -> Z -> size_class;   (* size_class_metadata[arena][class] *)
  st_ra : ralloc;                  (* region_allocator and regions[2] *)
  st_base : Z;                     (* address of struct allocator_state *)
  st_start : Z;                    (* slab_region_start *)
  st_end : Z;                      (* slab_region_end, 0 = NULL = not initialized *)
  st_ctr : Z;                      (* thread_arena_counter *)
  st_arena : Z -> Z                (* thread id -> thread_arena *)
}.
Definition set_st_os (o : os) (s : state) : state :=
  mkSt o (st_cls s) (st_ra s) (st_base s) (st_start s) (st_end s) (st_ctr s) (st_arena s).
Definition set_st_cls (f : Z -> Z -> size_class) (s : state) : state :=
  mkSt (st_os s) f (st_ra s) (st_base s) (st_start s) (st_end s) (st_ctr s) (st_arena s).
Definition set_st_ra (r : ralloc) (s : state) : state :=
  mkSt (st_os s) (st_cls s) r (st_base s) (st_start s) (st_end s) (st_ctr s) (st_arena s).
Definition set_st_base (x : Z) (s : state) : state :=
  mkSt (st_os s) (st_cls s) (st_ra s) x (st_start s) (st_end s) (st_ctr s) (st_arena s).
Definition set_st_start (x : Z) (s : state) : state :=
  mkSt (st_os s) (st_cls s) (st_ra s) (st_base s) x (st_end s) (st_ctr s) (st_arena s).
Definition set_st_end (x : Z) (s : state) : state :=
  mkSt (st_os s) (st_cls s) (st_ra s) (st_base s) (st_start s) x (st_ctr s) (st_arena s).
Definition set_st_ctr (x : Z) (s : state) : state :=
  mkSt (st_os s) (st_cls s) (st_ra s) (st_base s) (st_start s) (st_end s) x (st_arena s).
Definition set_st_arena (f : Z -> Z) (s : state) : state :=
  mkSt (st_os s) (st_cls s) (st_ra s) (st_base s) (st_start s) (st_end s) (st_ctr s) f.

(** actions on the parts *)
Definition put_cls (a k : Z) (c : size_class) (s : state) : state :=
  set_st_cls (fun a' k' => if (a' =? a) && (k' =? k) then c else st_cls s a' k') s.
(** one critical section of the lock of class k of arena a; the array
    size_class_metadata[N_ARENA][N_SIZE_CLASSES] is only defined in range *)
Definition on_class {A} (g : config) (a k : Z) (m : M cstate A) : M state A :=
  if in_range a 0 (N_ARENA g - 1) && in_range k 0 (N_SIZE_CLASSES g - 1)
  then zoom (fun s => mkCst (st_os s) (st_cls s a k))
            (fun cs s => put_cls a k (cs_c cs) (set_st_os (cs_os cs) s)) m
  else fail (UB "size class index out of bounds").
Definition ra_get (s : state) : rastate := mkRas (st_os s) (st_ra s).
Definition ra_put (rs : rastate) (s : state) : state := set_st_ra (rs_ra rs) (set_st_os (rs_os rs) s).
Definition on_ra {A} (m : M rastate A) : M state A := zoom ra_get ra_put m.
Definition p_ra {A} (p : prog rastate A) : prog state A := pzoom ra_get ra_put p.
Definition on_os {A} (m : M os A) : M state A := zoom st_os set_st_os m.
Definition p_os {A} (p : prog os A) : prog state A := pzoom st_os set_st_os p.
Definition set_errno_to (e : Z) : prog state unit := act (on_os (modify (set_errno e))).

(** h_malloc.c:1185-1193 *)
Definition is_init (s : state) : bool := negb (st_end s =? 0).
Definition enforce_init : M state unit :=
  let! s := get in
  if is_init s then ret tt else fatal "invalid uninitialized allocator usage".

(** ** Initialization *)
(** offset of slab_info_mapping[arena][class] in struct allocator_state, h_malloc.c:968-970 *)
Definition slab_info_at (g : config) (base a k : Z) : Z :=
  base + OFF_SLAB_INFO g + (a * N_SIZE_CLASSES g + k) * sizeof_slab_info_mapping g.
(** one round of the loop h_malloc.c:1265-1284; the structure was zero before.
    A division constant that libdivide could not produce would be a crash. *)
Definition init_class (g : config) (base start a k : Z) : M rstate size_class :=
  let! crng := random_state_init_from_random_state rng_zero in
  let bound := (REAL_CLASS_REGION_SIZE g - CLASS_REGION_SIZE g) / PAGE_SIZE - 1 in
  let! x := get_random_u64_uniform bound in
  let gap := w64 ((x + 1) * PAGE_SIZE) in
  let class_region_start := w64 (start + ARENA_SIZE g * a + REAL_CLASS_REGION_SIZE g * k + gap) in
  match libdivide_u32_gen (slot_size g k), libdivide_u64_gen (slab_size_of g k) with
  | Some d1, Some d2 =>
      ret (mkClass class_region_start (slab_info_at g base a k) d1 d2
             (repeat 0 (Z.to_nat (quarantine_random_dim g))) (repeat 0 (Z.to_nat (quarantine_queue_dim g))) 0
             None None 0 None None
             (repeat None (Z.to_nat (FREE_SLABS_QUARANTINE_RANDOM_LENGTH g)))
             0 0 0 0 crng 0 0 0 (fun _ => slab_zero))
  | _, _ => fail (UB "libdivide")
  end.
Fixpoint init_classes (g : config) (base start : Z) (l : list (Z * Z)) (cls : Z -> Z -> size_class) : M rstate (Z -> Z -> size_class) :=
  match l with
  | [] => ret cls
  | (a, k) :: t =>
      let! c := init_class g base start a k in
      init_classes g base start t (fun a' k' => if (a' =? a) && (k' =? k) then c else cls a' k')
  end.
Definition all_classes (g : config) : list (Z * Z) :=
  flat_map (fun a => map (fun k => (a, k)) (zrange 0 (N_SIZE_CLASSES g))) (zrange 0 (N_ARENA g)).
(** memory for which NULL is fatal *)
Definition need {S A} (msg : string) (r : option A) : M S A :=
  match r with Some x => ret x | None => fatal msg end.
Definition must {S} (msg : string) (failed : bool) : M S unit :=
  if failed then fatal msg else ret tt.

(** sizeof(struct random_state), random.h:12-19: two unsigned, 16 u32, 256 bytes *)
Definition sizeof_random_state : Z := 328.
(** init_slow_path, h_malloc.c:1197-1299, one critical section of init_lock.
    Omitted: the sysconf page size check, pthread_atfork, the protection of [ro] itself
    (a system call whose failure is fatal and that touches no heap memory), memory_set_name.
    The generator used during initialization lives in [rstate]. *)
Definition init_slow_path (g : config) : M state unit :=
  let! s := get in
  if is_init s then ret tt
  else
    let! rng_page := on_os (run (allocate_pages sizeof_random_state PAGE_SIZE true)) in
    let! rng_page := need "failed to allocate init rng" rng_page in
    let! rng := zoom (fun s => mkRst (st_os s) rng_zero) (fun r s => set_st_os (r_os r) s)
                 (random_state_init;; let! x := get_random_u64_uniform (REAL_CLASS_REGION_SIZE g / PAGE_SIZE) in
                  let! r := gets r_rng in ret (x, r)) in
    let '(x, rng) := rng in
    let metadata_guard_size := w64 ((x + 1) * PAGE_SIZE) in
    let! base := on_os (run (allocate_pages (sizeof_allocator_state g) metadata_guard_size false)) in
    let! base := need "failed to reserve allocator state" base in
    let! failed := on_os (memory_protect_rw_metadata base (OFF_REGIONS_A g)) in
    must "failed to unprotect allocator state" failed;;
    let! rr := zoom (fun s => mkRst (st_os s) rng) (fun r s => set_st_os (r_os r) s)
                 (let! ra_rng := random_state_init_from_random_state rng_zero in
                  let! r := gets r_rng in ret (ra_rng, r)) in
    let '(rarng, rng) := rr in
    modify (set_st_ra (ra_init g (base + OFF_REGIONS_A g) (base + OFF_REGIONS_B g) rarng));;
    let! failed := on_os (memory_protect_rw_metadata (base + OFF_REGIONS_A g) (INITIAL_REGION_TABLE_SIZE * sizeof_region_metadata)) in
    must "failed to unprotect memory for regions table" failed;;
    let! start := on_os (memory_map (slab_region_size g)) in
    let! start := need "failed to allocate slab region" start in
    let! cls := zoom (fun s => mkRst (st_os s) rng) (fun r s => set_st_os (r_os r) s)
                  (init_classes g base start (all_classes g) (st_cls s)) in
    modify (fun s => set_st_base base (set_st_start start (set_st_cls cls s)));;
    on_os (run (deallocate_pages rng_page sizeof_random_state PAGE_SIZE));;
    modify (set_st_end (start + slab_region_size g)).

(** init, h_malloc.c:1301-1313: the arena of the calling thread; a thread that already
    has an arena skips the check of is_init (with one arena it does not) *)
Definition pick_arena (g : config) (tid : Z) : M state (Z * bool) :=
  let! s := get in
  if N_ARENA g =? 1 then ret (0, false)
  else if st_arena s tid <? N_ARENA g then ret (st_arena s tid, true)
  else
    let a := st_ctr s mod N_ARENA g in
    put (set_st_arena (fupd (st_arena s) tid a) (set_st_ctr (w32 (st_ctr s + 1)) s));;
    ret (a, false).
Definition init (g : config) (tid : Z) : prog state Z :=
  do! r := act (pick_arena g tid) in
  let '(arena, ready) := r in
  (if ready : bool then Ret tt else act (init_slow_path g)) ;;;
  Ret arena.

(** ** Addresses *)
(** get_slab_region_end() and slab_region_start: p is a slab address *)
Definition in_slab_region (p : Z) (s : state) : bool := (p <? st_end s) && (st_start s <=? p).
(** slab_size_class, h_malloc.c:736-744 (with one arena the division by ARENA_SIZE is
    skipped, as offsets are below ARENA_SIZE then) *)
Definition slab_size_class (g : config) (s : state) (p : Z) : Z * Z :=
  let offset := w64 (p - st_start s) in
  let arena := if 1 <? N_ARENA g then w32 (offset / ARENA_SIZE g) else 0 in
  let offset := w64 (offset - arena * ARENA_SIZE g) in
  (arena, offset / REAL_CLASS_REGION_SIZE g).
(** slab_usable_size, h_malloc.c:746-748 *)
Definition slab_usable_size (g : config) (s : state) (p : Z) : Z :=
  class_size g (snd (slab_size_class g s p)).

(** ** Allocation *)
(** allocate_small, h_malloc.c:598-729 *)
Definition allocate_small (g : config) (arena requested_size : Z) : prog state (option Z) :=
  let info := get_size_info requested_size in
  act (on_class g arena (si_class info) (allocate_small_class g (si_class info) (negb (requested_size =? 0)))).
(** allocate, h_malloc.c:1374-1376 *)
Definition allocate (g : config) (arena size : Z) : prog state (option Z) :=
  if size <=? max_slab_size_class g then allocate_small g arena size else p_ra (allocate_large g size).
(** alloc, h_malloc.c:1473-1479 *)
Definition alloc (g : config) (tid size : Z) : prog state (option Z) :=
  do! arena := init g tid in allocate g arena size.
(** h_malloc, h_malloc.c:1481-1484 *)
Definition h_malloc (g : config) (tid size : Z) : prog state (option Z) :=
  alloc g tid (adjust_size_for_canary g size).
(** h_calloc, h_malloc.c:1486-1503 *)
Definition h_calloc (g : config) (tid nmemb size : Z) : prog state (option Z) :=
  if 2 ^ 64 <=? nmemb * size then set_errno_to ENOMEM ;;; Ret None
  else
    let total_size := adjust_size_for_canary g (nmemb * size) in
    do! p := alloc g tid total_size in
    match p with
    | None => Ret None
    | Some p =>
        (if negb (ZERO_ON_FREE g) && negb (total_size =? 0) && (total_size <=? max_slab_size_class g)
         then act (on_os (mem_set p 0 (total_size - canary_size g))) else Ret tt) ;;;
        Ret (Some p)
    end.

(** allocate_aligned, h_malloc.c:1401-1445: error number or pointer *)
Definition allocate_aligned (g : config) (arena alignment size min_alignment : Z) : prog state (Z + Z) :=
  if negb (Z.land (w64 (alignment - 1)) alignment =? 0) || (alignment <? min_alignment) then Ret (inl EINVAL)
  else if alignment <=? PAGE_SIZE then
    do! size := (if (size <=? max_slab_size_class g) && (min_align <? alignment)
                 then match get_size_info_align g size alignment with
                      | Some info => Ret (si_size info)
                      | None => act (fatal "invalid size for slabs")
                      end
                 else Ret size) in
    do! p := allocate g arena size in
    match p with
    | None => Ret (inl ENOMEM)
    | Some p => Ret (inr p)
    end
  else p_ra (allocate_large_aligned g alignment size).
(** alloc_aligned, h_malloc.c:1454-1461 *)
Definition alloc_aligned (g : config) (tid alignment size min_alignment : Z) : prog state (Z + Z) :=
  do! arena := init g tid in
  allocate_aligned g arena alignment (adjust_size_for_canary g size) min_alignment.
(** alloc_aligned_simple, h_malloc.c:1463-1471 *)
Definition alloc_aligned_simple (g : config) (tid alignment size : Z) : prog state (option Z) :=
  do! r := alloc_aligned g tid alignment size 1 in
  match r with
  | inl e => set_errno_to e ;;; Ret None
  | inr p => Ret (Some p)
  end.
(** h_malloc.c:1649-1671; posix_memalign: error number, or 0 and the value stored to
    *memptr *)
Definition h_posix_memalign (g : config) (tid alignment size : Z) : prog state (Z + Z) :=
  alloc_aligned g tid alignment size 8.
Definition h_aligned_alloc (g : config) (tid alignment size : Z) : prog state (option Z) :=
  alloc_aligned_simple g tid alignment size.
Definition h_valloc (g : config) (tid size : Z) : prog state (option Z) :=
  alloc_aligned_simple g tid PAGE_SIZE size.
Definition h_pvalloc (g : config) (tid size : Z) : prog state (option Z) :=
  let size := page_align size in
  if size =? 0 then set_errno_to ENOMEM ;;; Ret None
  else alloc_aligned_simple g tid PAGE_SIZE size.

(** ** Deallocation *)
(** deallocate_small, h_malloc.c:771-911 *)
Definition deallocate_small (g : config) (p : Z) (expected : option Z) : prog state unit :=
  act (fun s => let '(a, k) := slab_size_class g s p in
                on_class g a k (deallocate_small_class g k p expected) s).
(** deallocate_large, h_malloc.c:1378-1399 *)
Definition deallocate_large_top (g : config) (p : Z) (expected : option Z) : prog state unit :=
  act enforce_init ;;; p_ra (deallocate_large g p expected).
(** h_free, h_malloc.c:1675-1694 *)
Definition h_free (g : config) (p : Z) : prog state unit :=
  if p =? 0 then Ret tt
  else
    do! s := act get in
    if in_slab_region p s then deallocate_small g p None
    else
      do! saved_errno := act (gets (fun s => errno (st_os s))) in
      deallocate_large_top g p None ;;;
      set_errno_to saved_errno.
(** h_free_sized, h_malloc.c:1700-1720 *)
Definition h_free_sized (g : config) (p expected_size : Z) : prog state unit :=
  if p =? 0 then Ret tt
  else
    let expected_size := adjust_size_for_canary g expected_size in
    do! s := act get in
    if in_slab_region p s then deallocate_small g p (Some (si_size (get_size_info expected_size)))
    else deallocate_large_top g p (Some expected_size).

(** ** realloc *)
(** critical section: regions_find or "invalid realloc"; result: size and guard size *)
Definition realloc_find (old : Z) : M rastate (Z * Z) :=
  let! oi := regions_find old in
  let! ra := gets rs_ra in
  match oi with
  | None => fatal "invalid realloc"
  | Some i => ret (rg_size (ra_cells ra i), rg_guard (ra_cells ra i))
  end.
(** critical section h_malloc.c:1556-1562 *)
Definition realloc_resize (g : config) (old old_size size : Z) : M rastate unit :=
  let! oi := regions_find old in
  match oi with
  | None => fatal "invalid realloc"
  | Some i => regions_set_size i size;; stats_large_deallocate g (w64 (old_size - size))
  end.
(** critical section h_malloc.c:1600-1607 *)
Definition realloc_delete (g : config) (old old_size : Z) : M rastate unit :=
  let! oi := regions_find old in
  match oi with
  | None => fatal "invalid realloc"
  | Some i => regions_delete i;; stats_large_deallocate g old_size
  end.
(** the last part: allocate, copy, free, h_malloc.c:1628-1646 *)
Definition realloc_copy (g : config) (tid old old_size size : Z) : prog state (option Z) :=
  do! arena := init g tid in
  do! new := allocate g arena size in
  match new with
  | None => Ret None
  | Some new =>
      let copy_size := Z.min size old_size in
      let copy_size := if (0 <? copy_size) && (copy_size <=? max_slab_size_class g) then copy_size - canary_size g else copy_size in
      act (on_os (mem_copy new old copy_size)) ;;;
      (if old_size <=? max_slab_size_class g then deallocate_small g old None
       else deallocate_large_top g old None) ;;;
      Ret (Some new)
  end.
(** moving a huge block by mremap, h_malloc.c:1590-1621 *)
Definition realloc_mremap (g : config) (old old_size old_guard_size size : Z) : prog state (option Z) :=
  do! new := p_ra (allocate_large g size) in
  match new with
  | None => Ret None
  | Some new =>
      act (on_ra (realloc_delete g old old_size)) ;;;
      do! failed := act (on_os (memory_remap_fixed old old_size new size)) in
      (if failed : bool then
         act (on_os (mem_copy new old (Z.min size old_size))) ;;;
         p_os (deallocate_pages old old_size old_guard_size)
       else
         act (on_os (memory_unmap (w64 (old - old_guard_size)) old_guard_size)) ;;;
         act (on_os (memory_unmap (w64 (old + page_align old_size)) old_guard_size)) ;;;
         Ret tt) ;;;
      Ret (Some new)
  end.
(** shrinking in place, h_malloc.c:1541-1567 *)
Definition realloc_shrink (g : config) (old old_size old_guard_size size : Z) : prog state (option Z) :=
  let new_end := w64 (old + size) in
  do! failed := act (on_os (memory_map_fixed new_end old_guard_size)) in
  if failed : bool then Ret None
  else
    let new_guard_end := w64 (new_end + old_guard_size) in
    p_ra (regions_quarantine_deallocate_pages g new_guard_end (w64 (old_size - size)) 0) ;;;
    act (on_ra (realloc_resize g old old_size size)) ;;;
    Ret (Some old).
(** h_realloc, h_malloc.c:1505-1647; the block guarded by the constant
    vma_merging_reliable = false (1569-1588) is dead code *)
Definition h_realloc (g : config) (tid old size : Z) : prog state (option Z) :=
  let size := adjust_size_for_canary g size in
  if old =? 0 then alloc g tid size
  else
    let large := max_slab_size_class g <? size in
    let size := if large then get_large_size_class g size else size in
    if large && (size =? 0) then set_errno_to ENOMEM ;;; Ret None
    else
      do! s := act get in
      if in_slab_region old s then
        let old_size := slab_usable_size g s old in
        if (size <=? max_slab_size_class g) && (si_size (get_size_info size) =? old_size) then Ret (Some old)
        else realloc_copy g tid old old_size size
      else
        act enforce_init ;;;
        do! r := act (on_ra (realloc_find old)) in
        let '(old_size, old_guard_size) := r in
        if old_size =? size then Ret (Some old)
        else if max_slab_size_class g <? size then
          if size <? old_size then realloc_shrink g old old_size old_guard_size size
          else if MREMAP_MOVE_THRESHOLD <=? Z.min size old_size then realloc_mremap g old old_size old_guard_size size
          else realloc_copy g tid old old_size size
        else realloc_copy g tid old old_size size.

(** ** Queries *)
(** h_malloc_usable_size, h_malloc.c:1760-1790 *)
Definition usable_find (p : Z) : M rastate Z :=
  let! oi := regions_find p in
  let! ra := gets rs_ra in
  match oi with
  | None => fatal "invalid malloc_usable_size"
  | Some i => ret (rg_size (ra_cells ra i))
  end.
Definition h_malloc_usable_size (g : config) (p : Z) : prog state Z :=
  if p =? 0 then Ret 0
  else
    do! s := act get in
    if in_slab_region p s then
      act (fun s => let '(a, k) := slab_size_class g s p in
                    on_class g a k (memory_corruption_check_class g k p) s) ;;;
      let size := slab_usable_size g s p in
      Ret (if size =? 0 then 0 else size - canary_size g)
    else
      act enforce_init ;;;
      act (on_ra (usable_find p)).
(** h_malloc_object_size, h_malloc.c:1792-1847 *)
Definition object_find (p : Z) : M rastate Z :=
  let! oi := regions_find p in
  let! ra := gets rs_ra in
  ret (match oi with None => SIZE_MAX | Some i => rg_size (ra_cells ra i) end).
Definition h_malloc_object_size (g : config) (p : Z) : prog state Z :=
  if p =? 0 then Ret 0
  else
    do! s := act get in
    if in_slab_region p s then
      do! offset := act (fun s => let '(a, k) := slab_size_class g s p in
                                  on_class g a k (object_size_class g k p) s) in
      let size := slab_usable_size g s p in
      Ret (if size =? 0 then 0 else w64 (size - canary_size g - offset))
    else if negb (is_init s) then Ret SIZE_MAX
    else act (on_ra (object_find p)).
(** h_malloc_object_size_fast, h_malloc.c:1849-1865 *)
Definition h_malloc_object_size_fast (g : config) (p : Z) : prog state Z :=
  if p =? 0 then Ret 0
  else
    do! s := act get in
    if in_slab_region p s then
      let size := slab_usable_size g s p in
      Ret (if size =? 0 then 0 else size - canary_size g)
    else if negb (is_init s) then Ret 0
    else Ret SIZE_MAX.

(** ** malloc_trim, h_malloc.c:1877-1947: one critical section per class, the zero-size
    class is skipped *)
Fixpoint trim_classes (g : config) (l : list (Z * Z)) (trimmed : bool) : prog state bool :=
  match l with
  | [] => Ret trimmed
  | (a, k) :: t =>
      do! b := (if k =? 0 then Ret false else act (on_class g a k (malloc_trim_class g k))) in
      trim_classes g t (trimmed || b)
  end.
Definition h_malloc_trim (g : config) : prog state bool :=
  do! s := act get in
  if negb (is_init s) then Ret false
  else trim_classes g (all_classes g) false.
