(** Control-flow skeletons of all functions of h_malloc.c that lock, unlock, seal, unseal
    or touch the allocator state: what a thread does, in which order, on every path.
    The data decisions are left open (every test can go both ways, so the skeletons have
    at least the paths of the code; where a theorem needs a path that really exists it
    names it).  Only the instructions below are kept:

    - locking, unlocking, initializing a mutex (mutex.h:14-26);
    - thread_unseal_metadata, thread_seal_metadata (h_malloc.c:1129-1146) and pkey_alloc;
    - touching what a mutex protects: a struct size_class with its slab metadata, or the
      region allocator with its tables.  These and the mutexes of the classes and of the
      region allocator lie in struct allocator_state, whose pages carry the protection
      key (h_malloc.c:957-971, memory.c:74-84);
    - (re)seeding a random generator, which is part of the same structures;
    - the outcome of a test of is_init (h_malloc.c:1185-1187) and the store that makes it
      true; the registration of the fork handlers;
    - the abort of fatal_error.

    Not kept: the read-only structure [ro] (not sealed; written only under init_lock
    before publication), user memory, system calls except that they may abort. *)
From Coq Require Import ZArith List Bool String.
From Verif Require Import M_Base M_Config M_SizeClass.
Import ListNotations.
Open Scope Z_scope.

Inductive lockid : Type :=
| LInit                    (* init_lock, h_malloc.c:1195 *)
| LRegion                  (* ro.region_allocator->lock *)
| LClass (a k : Z).        (* ro.size_class_metadata[a][k].lock *)

Inductive instr : Type :=
| ILock (l : lockid)
| IUnlock (l : lockid)
| IMutexInit (l : lockid)
| ITouch (l : lockid)      (* access to what [l] protects *)
| ISetup (l : lockid)      (* initialization of what [l] protects, before publication *)
| ISeed (l : lockid)       (* random_state_init of the generator [l] protects *)
| IUnseal
| ISeal
| IKeyAlloc                (* pkey_alloc(0, 0): the calling thread gets access *)
| IIsInit (b : bool)       (* a test of is_init came out as [b] *)
| IPublish                 (* the store to slab_region_end, h_malloc.c:1286 *)
| IRegister                (* pthread_atfork, h_malloc.c:1296 *)
| IForkTest (b : bool)     (* fork finds the handlers registered or not *)
| IAbort.

Inductive stmt : Type :=
| Skip
| Do (i : instr)
| Seq (s t : stmt)
| Or (s t : stmt)                     (* a test *)
| Pick (f : Z -> Z -> stmt)           (* some arena and class *)
| Many (s : stmt)                     (* a loop *)
| For (lo : Z) (n : nat) (f : Z -> stmt)
| Return
| Call (s : stmt).                    (* a function call: Return inside ends it *)

Declare Scope flow_scope.
Delimit Scope flow_scope with flow.
Notation "s ;; t" := (Seq s t) (at level 100, t at level 200, right associativity) : flow_scope.
Open Scope flow_scope.

Inductive outcome : Type := Next | Returned | Aborted.
(** [path s t r]: the instructions of one way through [s] *)
Inductive path : stmt -> list instr -> outcome -> Prop :=
| p_skip : path Skip [] Next
| p_do i : i <> IAbort -> path (Do i) [i] Next
| p_abort : path (Do IAbort) [IAbort] Aborted
| p_seq s t t1 t2 r : path s t1 Next -> path t t2 r -> path (Seq s t) (t1 ++ t2) r
| p_seq_out s t t1 r : path s t1 r -> r <> Next -> path (Seq s t) t1 r
| p_or1 s t t1 r : path s t1 r -> path (Or s t) t1 r
| p_or2 s t t1 r : path t t1 r -> path (Or s t) t1 r
| p_pick f a k t1 r : path (f a k) t1 r -> path (Pick f) t1 r
| p_many0 s : path (Many s) [] Next
| p_many s t1 t2 r : path s t1 Next -> path (Many s) t2 r -> path (Many s) (t1 ++ t2) r
| p_many_out s t1 r : path s t1 r -> r <> Next -> path (Many s) t1 r
| p_for0 lo f : path (For lo 0 f) [] Next
| p_for lo n f t1 t2 r : path (f lo) t1 Next -> path (For (lo + 1) n f) t2 r -> path (For lo (S n) f) (t1 ++ t2) r
| p_for_out lo n f t1 r : path (f lo) t1 r -> r <> Next -> path (For lo (S n) f) t1 r
| p_return : path Return [] Returned
| p_call s t1 r : path s t1 r -> path (Call s) t1 (match r with Aborted => Aborted | _ => Next end).

Section Functions.
Context (g : config).
Definition abort : stmt := Do IAbort.
(** a check that may end the process, or a system call *)
Definition check : stmt := Or Skip abort.
Definition lock (l : lockid) : stmt := Do (ILock l).
Definition unlock (l : lockid) : stmt := Do (IUnlock l).
Definition touch (l : lockid) : stmt := Do (ITouch l).
Definition unseal : stmt := Do IUnseal.
Definition seal : stmt := Do ISeal.
Definition narena : nat := Z.to_nat (N_ARENA g).
Definition nclass : nat := Z.to_nat (N_SIZE_CLASSES g).

(** full_lock, full_unlock, post_fork_child, h_malloc.c:1148-1183 *)
Definition full_lock : stmt :=
  unseal ;; lock LRegion ;;
  For 0 narena (fun a => For 0 nclass (fun k => lock (LClass a k))) ;;
  seal.
Definition full_unlock : stmt :=
  unseal ;; unlock LRegion ;;
  For 0 narena (fun a => For 0 nclass (fun k => unlock (LClass a k))) ;;
  seal.
Definition post_fork_child : stmt :=
  unseal ;;
  Do (IMutexInit LRegion) ;; Do (ISeed LRegion) ;; check ;;
  For 0 narena (fun a => For 0 nclass (fun k => Do (IMutexInit (LClass a k)) ;; Do (ISeed (LClass a k)) ;; check)) ;;
  seal.

Definition isinit (b : bool) : stmt := Do (IIsInit b).
(** enforce_init, h_malloc.c:1189-1193 *)
Definition f_enforce_init : stmt := Or (isinit true) (isinit false ;; abort).

(** allocate_small, h_malloc.c:598-729 *)
Definition f_allocate_small (a k : Z) : stmt := let l := LClass a k in Call (
  lock l ;; touch l ;;
  Or (* partial_slabs == NULL *)
    (Or (* an empty slab *) (touch l ;; check ;; touch l ;; unlock l ;; Return) Skip ;;
     Or (* a free slab *)
       (touch l ;; check ;;
        Or (unlock l ;; Return) Skip ;;
        touch l ;; unlock l ;; Return) Skip ;;
     touch l ;; check ;; (* alloc_metadata *)
     Or (unlock l ;; Return) Skip ;;
     touch l ;; check ;; touch l ;; unlock l ;; Return)
    Skip ;;
  touch l ;; check ;; touch l ;;
  unlock l ;; Return).
(** deallocate_small, h_malloc.c:771-911 *)
Definition f_deallocate_small (a k : Z) : stmt := let l := LClass a k in Call (
  check ;;
  lock l ;; touch l ;; check ;; touch l ;; check ;; touch l ;; check ;;
  Or (* quarantine *)
    (check ;; touch l ;; check ;; touch l ;;
     Or (unlock l ;; Return) Skip ;;
     touch l ;;
     Or (unlock l ;; Return) Skip ;;
     touch l) Skip ;;
  touch l ;;
  Or (* the slab became empty *)
    (touch l ;;
     Or (check ;; Or (touch l ;; check ;; unlock l ;; Return) Skip ;; check) Skip ;;
     touch l) Skip ;;
  unlock l).

(** allocate_pages, allocate_pages_aligned, deallocate_pages (pages.c): system calls only *)
Definition f_pages : stmt := check.
(** regions_quarantine_deallocate_pages, h_malloc.c:973-1015 *)
Definition f_quarantine : stmt := Call (
  Or (f_pages ;; Return) Skip ;;
  check ;; check ;;
  lock LRegion ;; touch LRegion ;; check ;; touch LRegion ;;
  Or (unlock LRegion ;; Return) Skip ;;
  touch LRegion ;;
  unlock LRegion ;;
  check).
(** allocate_large, h_malloc.c:1344-1372 *)
Definition f_allocate_large : stmt := Call (
  Or Return Skip ;;
  lock LRegion ;; touch LRegion ;; check ;; unlock LRegion ;;
  f_pages ;;
  Or Return Skip ;;
  lock LRegion ;; touch LRegion ;; check ;; touch LRegion ;;
  Or (unlock LRegion ;; f_pages ;; Return) Skip ;;
  touch LRegion ;;
  unlock LRegion ;; Return).
(** allocate, h_malloc.c:1374-1376 *)
Definition f_allocate : stmt := Or (Pick (fun a k => f_allocate_small a k)) f_allocate_large.
(** deallocate_large, h_malloc.c:1378-1399 *)
Definition f_deallocate_large : stmt := Call (
  f_enforce_init ;;
  unseal ;;
  lock LRegion ;; touch LRegion ;; check ;; touch LRegion ;; check ;; touch LRegion ;;
  unlock LRegion ;;
  f_quarantine).
(** allocate_aligned, h_malloc.c:1401-1445 *)
Definition f_allocate_aligned : stmt := Call (
  Or Return Skip ;;
  Or (check ;; f_allocate ;; Return) Skip ;;
  Or Return Skip ;;
  lock LRegion ;; touch LRegion ;; check ;; unlock LRegion ;;
  f_pages ;;
  Or Return Skip ;;
  lock LRegion ;; touch LRegion ;; check ;; touch LRegion ;;
  Or (unlock LRegion ;; f_pages ;; Return) Skip ;;
  unlock LRegion ;; Return).

(** what pthread_atfork may do with the allocator (h_malloc.c:1295): the allocator is
    initialized, so it is a plain allocation or release *)
Definition f_atfork_memory : stmt := Many (
  Or (Call (unseal ;; f_allocate ;; seal ;; Return))
     (Or (Call (unseal ;; Pick (fun a k => f_deallocate_small a k) ;; seal ;; Return))
         (Call (f_deallocate_large ;; seal)))).
(** init_slow_path, h_malloc.c:1197-1299 *)
Definition f_init_slow_path : stmt := Call (
  lock LInit ;;
  Or (isinit true ;; unlock LInit ;; Return) (isinit false) ;;
  Do IKeyAlloc ;;
  check ;; check ;; check ;; check ;;
  Do (IMutexInit LRegion) ;; check ;; Do (ISetup LRegion) ;;
  check ;; check ;;
  For 0 narena (fun a => For 0 nclass (fun k => Do (IMutexInit (LClass a k)) ;; check ;; Do (ISetup (LClass a k)))) ;;
  check ;;
  Do IPublish ;;
  check ;;
  unlock LInit ;;
  f_atfork_memory ;; Do IRegister ;;
  check).
(** init, h_malloc.c:1301-1313; a thread that has an arena already called it before *)
Definition f_init : stmt := Or (isinit true) (isinit false ;; f_init_slow_path).

(** alloc_aligned, alloc, h_malloc.c:1454-1479 *)
Definition f_alloc_aligned : stmt := Call (f_init ;; unseal ;; f_allocate_aligned ;; seal ;; Return).
Definition f_alloc : stmt := Call (f_init ;; unseal ;; f_allocate ;; seal ;; Return).

(** ** the exported functions *)
(** h_malloc.c:1481-1503 *)
Definition f_malloc : stmt := Call (f_alloc ;; Return).
Definition f_calloc : stmt := Call (Or Return Skip ;; f_alloc ;; Return).
(** h_realloc, h_malloc.c:1505-1647 (the block guarded by vma_merging_reliable = false,
    1576-1598, is dead code) *)
Definition f_realloc : stmt := Call (
  Or (f_alloc ;; Return) Skip ;;
  Or (Or Return Skip) Skip ;;
  Or (* inside the slab region, so it exists *)
     (isinit true ;; Or Return Skip ;; unseal)
     (f_enforce_init ;; unseal ;;
      lock LRegion ;; touch LRegion ;; check ;; touch LRegion ;;
      Or (unlock LRegion ;; seal ;; Return) Skip ;;
      unlock LRegion ;;
      Or (* size > max_slab_size_class *)
        (Or (* in-place shrink *)
           (check ;;
            Or (seal ;; Return) Skip ;;
            f_quarantine ;;
            lock LRegion ;; touch LRegion ;; check ;; touch LRegion ;; unlock LRegion ;;
            seal ;; Return) Skip ;;
         Or (* mremap *)
           (f_allocate_large ;;
            Or (seal ;; Return) Skip ;;
            lock LRegion ;; touch LRegion ;; check ;; touch LRegion ;; unlock LRegion ;;
            check ;; Or f_pages (check ;; check) ;;
            seal ;; Return) Skip) Skip) ;;
  isinit true ;; (* init(): the allocator is initialized on both ways here *)
  f_allocate ;;
  Or (seal ;; Return) Skip ;;
  Or (Pick (fun a k => f_deallocate_small a k)) f_deallocate_large ;;
  seal ;; Return).
(** h_malloc.c:1649-1671 *)
Definition f_posix_memalign : stmt := Call (f_alloc_aligned ;; Return).
Definition f_aligned_alloc : stmt := Call (f_alloc_aligned ;; Or Return Skip ;; Return).
Definition f_valloc : stmt := f_aligned_alloc.
Definition f_pvalloc : stmt := Call (Or Return Skip ;; f_aligned_alloc ;; Return).
(** h_free, h_free_sized, h_malloc.c:1675-1720 *)
Definition f_free : stmt := Call (
  Or Return Skip ;;
  Or (isinit true ;; unseal ;; Pick (fun a k => f_deallocate_small a k) ;; seal ;; Return) Skip ;;
  f_deallocate_large ;; seal).
Definition f_free_sized : stmt := f_free.
(** memory_corruption_check_small, h_malloc.c:1722-1758 *)
Definition f_corruption_check (a k : Z) : stmt := let l := LClass a k in Call (
  lock l ;; touch l ;; check ;; touch l ;; check ;; touch l ;; check ;; touch l ;; check ;; unlock l).
(** h_malloc_usable_size, h_malloc.c:1760-1790 *)
Definition f_usable_size : stmt := Call (
  Or Return Skip ;;
  Or (isinit true ;; unseal ;; Pick (fun a k => f_corruption_check a k) ;; seal ;; Return) Skip ;;
  f_enforce_init ;; unseal ;;
  lock LRegion ;; touch LRegion ;; check ;; touch LRegion ;; unlock LRegion ;;
  seal ;; Return).
(** h_malloc_object_size, h_malloc.c:1792-1847 *)
Definition f_object_size : stmt := Call (
  Or Return Skip ;;
  Or (isinit true ;; unseal ;;
      Pick (fun a k => let l := LClass a k in lock l ;; touch l ;; check ;; touch l ;; check ;; unlock l) ;;
      seal ;; Return) Skip ;;
  Or (isinit false ;; Return) (isinit true) ;;
  unseal ;;
  lock LRegion ;; touch LRegion ;; unlock LRegion ;;
  seal ;; Return).
(** h_malloc_object_size_fast, h_malloc.c:1849-1865: reads [ro] only *)
Definition f_object_size_fast : stmt := Call Return.
(** h_malloc_trim, h_malloc.c:1877-1947; h_mallopt, 1867-1875 *)
Definition f_trim : stmt := Call (
  Or (isinit false ;; Return) (isinit true) ;;
  unseal ;;
  For 0 narena (fun a => For 1 (pred nclass) (fun k => let l := LClass a k in
    lock l ;; touch l ;; Many (touch l ;; check ;; touch l ;; check) ;; touch l ;; Many (touch l ;; check) ;; unlock l)) ;;
  seal ;; Return).
Definition f_mallopt : stmt := Call (Or (f_trim ;; Return) Skip ;; Return).
(** h_mallinfo (h_mallinfo2), h_malloc.c:1954-1996 *)
Definition f_mallinfo : stmt := Call (
  Or (isinit false ;; Return) (isinit true) ;;
  unseal ;;
  lock LRegion ;; touch LRegion ;; unlock LRegion ;;
  For 0 narena (fun a => For 0 nclass (fun k => let l := LClass a k in lock l ;; touch l ;; unlock l)) ;;
  seal ;; Return).
(** h_malloc_info, h_malloc.c:2000-2055; [io] is what fputs and fprintf do with the
    allocator *)
Definition f_malloc_info (io : stmt) : stmt := Call (
  Or Return Skip ;;
  io ;;
  Or (isinit true ;; unseal ;;
      For 0 narena (fun a =>
        io ;;
        For 0 nclass (fun k => let l := LClass a k in lock l ;; touch l ;; unlock l ;; Or io Skip) ;;
        io) ;;
      lock LRegion ;; touch LRegion ;; unlock LRegion ;;
      io ;;
      seal) (isinit false) ;;
  io ;; Return).
(** stdio that allocates nothing, and stdio that may call malloc (for example a stream of
    open_memstream, whose buffer grows while it is written) *)
Definition io_plain : stmt := Skip.
Definition io_alloc : stmt := Or Skip f_malloc.
(** h_mallinfo_arena_info, h_malloc.c:2076-2108 *)
Definition f_arena_info : stmt := Call (
  Or (isinit false ;; Return) (isinit true) ;;
  unseal ;;
  Or (Pick (fun a _ => For 0 nclass (fun k => let l := LClass a k in lock l ;; touch l ;; unlock l)))
     (Or (lock LRegion ;; touch LRegion ;; unlock LRegion) Skip) ;;
  seal ;; Return).
(** h_mallinfo_bin_info, h_malloc.c:2116-2139: seal and unseal are exchanged *)
Definition f_bin_info : stmt := Call (
  Or (isinit false ;; Return) (isinit true) ;;
  Or (Pick (fun a k => let l := LClass a k in
      seal ;;
      lock l ;; touch l ;; unlock l ;;
      unseal)) Skip ;;
  Return).
(** h_malloc_iterate, h_malloc_disable, h_malloc_enable, h_malloc.c:2141-2155 *)
Definition f_iterate : stmt := Call abort.
Definition f_disable : stmt := Call (f_init ;; Call full_lock).
Definition f_enable : stmt := Call (f_enforce_init ;; Call full_unlock).
(** h_malloc_disable_memory_tagging, h_malloc.c:2170-2189 *)
Definition f_disable_tagging : stmt := Call (lock LInit ;; Or (Or (check ;; check) Skip) Skip ;; unlock LInit).
(** trigger_early_init, h_malloc.c:1315-1321 *)
Definition f_early_init : stmt := Call (f_malloc ;; f_free).
(** functions that return a constant: h_malloc.c:1954-1957, 2059-2066, 2159-2166 *)
Definition f_constant : stmt := Call Return.

(** h_malloc_info and h_mallinfo_bin_info on one side, malloc_disable and malloc_enable on
    the other, are listed apart: the claims about them differ *)
Definition exported : list (string * stmt) :=
  [("malloc", f_malloc); ("calloc", f_calloc); ("realloc", f_realloc); ("posix_memalign", f_posix_memalign);
   ("aligned_alloc", f_aligned_alloc); ("memalign", f_aligned_alloc); ("valloc", f_valloc); ("pvalloc", f_pvalloc);
   ("free", f_free); ("cfree", f_free); ("free_sized", f_free_sized); ("malloc_usable_size", f_usable_size);
   ("malloc_object_size", f_object_size); ("malloc_object_size_fast", f_object_size_fast);
   ("mallopt", f_mallopt); ("malloc_trim", f_trim); ("mallinfo2", f_mallinfo);
   ("mallinfo_arena_info", f_arena_info); ("malloc_iterate", f_iterate); ("malloc_disable_memory_tagging", f_disable_tagging);
   ("early initialization", f_early_init); ("malloc_stats", f_constant);
   ("mallinfo", f_constant); ("mallinfo_narenas", f_constant); ("mallinfo_nbins", f_constant);
   ("malloc_get_state", f_constant); ("malloc_set_state", f_constant)]%string.

(** ** threads
    [life]: everything one thread does with the allocator, call after call.  A program
    calls malloc_enable after malloc_disable from the same thread and nothing in between;
    fork runs full_lock before and full_unlock after it in the parent (pthread_atfork,
    h_malloc.c:1296). *)
Inductive life : list instr -> Prop :=
| life_end : life []
| life_call n f t t' : In (n, f) exported -> path f t Next -> life t' -> life (t ++ t')
| life_info t t' : path (f_malloc_info io_alloc) t Next -> life t' -> life (t ++ t')
| life_bin_info t t' : path f_bin_info t Next -> life t' -> life (t ++ t')
| life_disable t1 t2 t' : path f_disable t1 Next -> path f_enable t2 Next -> life t' -> life (t1 ++ t2 ++ t')
| life_fork t1 t2 t' : path full_lock t1 Next -> path full_unlock t2 Next -> life t' ->
    life ([IForkTest true] ++ t1 ++ t2 ++ t')
| life_fork_plain t' : life t' -> life ([IForkTest false] ++ t')
| life_abort n f t : In (n, f) exported -> path f t Aborted -> life t
| life_info_abort t : path (f_malloc_info io_alloc) t Aborted -> life t
| life_disable_abort t : path f_disable t Aborted -> life t.

(** the process: who holds each lock, whether the allocator is initialized and the fork
    handlers are registered, what each thread still does, and how often the allocator was
    initialized *)
Record proc : Type := mkProc {
  holder : lockid -> option nat; inited : bool; registered : bool; ended : bool;
  todo : nat -> list instr; inits : nat }.
Definition lock_eqb (l m : lockid) : bool :=
  match l, m with
  | LInit, LInit => true | LRegion, LRegion => true
  | LClass a k, LClass b j => (a =? b) && (k =? j)
  | _, _ => false
  end.
Definition upd_lock (h : lockid -> option nat) (l : lockid) (o : option nat) : lockid -> option nat :=
  fun m => if lock_eqb m l then o else h m.
Definition upd_todo (f : nat -> list instr) (i : nat) (t : list instr) : nat -> list instr :=
  fun j => if Nat.eqb j i then t else f j.

(** one instruction of thread [i].  A thread waits at a lock that is held; a test has the
    outcome the state gives it; an abort ends the process. *)
Inductive pstep : proc -> proc -> Prop :=
| ps_lock h b r n f i l t : f i = ILock l :: t -> h l = None ->
    pstep (mkProc h b r false f n) (mkProc (upd_lock h l (Some i)) b r false (upd_todo f i t) n)
| ps_unlock h b r n f i l t : f i = IUnlock l :: t ->
    pstep (mkProc h b r false f n) (mkProc (upd_lock h l None) b r false (upd_todo f i t) n)
| ps_mutex_init h b r n f i l t : f i = IMutexInit l :: t ->
    pstep (mkProc h b r false f n) (mkProc (upd_lock h l None) b r false (upd_todo f i t) n)
| ps_is_init h b r n f i t : f i = IIsInit b :: t ->
    pstep (mkProc h b r false f n) (mkProc h b r false (upd_todo f i t) n)
| ps_publish h b r n f i t : f i = IPublish :: t ->
    pstep (mkProc h b r false f n) (mkProc h true r false (upd_todo f i t) (S n))
| ps_register h b r n f i t : f i = IRegister :: t ->
    pstep (mkProc h b r false f n) (mkProc h b true false (upd_todo f i t) n)
| ps_fork_test h b r n f i t : f i = IForkTest r :: t ->
    pstep (mkProc h b r false f n) (mkProc h b r false (upd_todo f i t) n)
| ps_abort h b r n f i t : f i = IAbort :: t ->
    pstep (mkProc h b r false f n) (mkProc h b r true f n)
| ps_other h b r n f i x t : f i = x :: t ->
    match x with ITouch _ | ISetup _ | ISeed _ | IUnseal | ISeal | IKeyAlloc => True | _ => False end ->
    pstep (mkProc h b r false f n) (mkProc h b r false (upd_todo f i t) n).

(** a process starts with all locks free and nothing initialized; threads [0 .. m-1] exist *)
Definition start (f : nat -> list instr) : proc := mkProc (fun _ => None) false false false f 0.
Inductive runs_to (s : proc) : proc -> Prop :=
| rt_refl : runs_to s s
| rt_step u v : runs_to s u -> pstep u v -> runs_to s v.
End Functions.
