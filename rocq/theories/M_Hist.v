(** Histories of calls by a program with any number of threads, one call at a time.
    (Interleavings inside calls: M_Conc.v.) *)
From Coq Require Import String ZArith List Bool.
From Verif Require Import M_Base M_Config M_SizeClass M_Libdivide M_OS M_Random M_Slab M_Region M_Api.
Import ListNotations.
Open Scope Z_scope.

(** The process before the first call: static storage is zero, h_malloc.c:62-89, and
    thread_arena starts as N_ARENA (h_malloc.c:62).  [o] is arbitrary: whatever the
    program and the loader have mapped. *)
Definition class_zero : size_class :=
  mkClass 0 0 (mkDivider 0 0) (mkDivider 0 0) [] [] 0 None None 0 None None [] 0 0 0 0 rng_zero 0 0 0 (fun _ => slab_zero).
Definition boot (g : config) (o : os) : state :=
  mkSt o (fun _ _ => class_zero) (mkRa (fun _ _ => region_zero) (fun _ => 0) false 0 0 0 [] [] 0 rng_zero false)
       0 0 0 0 (fun _ => N_ARENA g).

(** what the program can do: the exported functions of h_malloc.h, and stores *)
Inductive op : Type :=
| OMalloc (n : Z)
| OCalloc (nmemb n : Z)
| ORealloc (p n : Z)
| OPosixMemalign (al n : Z)
| OAlignedAlloc (al n : Z)
| OMemalign (al n : Z)
| OValloc (n : Z)
| OPvalloc (n : Z)
| OFree (p : Z)
| OFreeSized (p n : Z)
| OUsableSize (p : Z)
| OObjectSize (p : Z)
| OObjectSizeFast (p : Z)
| OTrim
| OWrite (x v : Z).
(** what it sees *)
Inductive ans : Type :=
| ANull                  (* a null pointer *)
| APtr (p : Z)           (* a pointer *)
| AErr (e : Z)           (* posix_memalign failed *)
| ASize (n : Z)
| ABool (b : bool)
| AUnit.
Definition ans_ptr (r : option Z) : ans := match r with Some p => APtr p | None => ANull end.
Definition ans_code (r : Z + Z) : ans := match r with inr p => APtr p | inl e => AErr e end.
Definition pmap {S A B} (f : A -> B) (p : prog S A) : prog S B := do! x := p in Ret (f x).
(** a store by the program: a fault unless the page is writable.  The allocator's own
    state is not kept in [mem] in this model, so a store that hits it is outside the
    model. *)
Definition store (g : config) (x v : Z) : M state unit :=
  let! s := get in
  if negb (is_rw (pages (st_os s) (page_of x))) then fail Segv
  else if is_init s && in_pages (st_base s) (sizeof_allocator_state g) (page_of x) then fail (UB "store into the allocator state")
  else on_os (modify (fun o => set_mem (fupd (mem o) x (w8 v)) o)).
(** memalign is aligned_alloc, h_malloc.c:1653-1657 *)
Definition op_run (g : config) (tid : Z) (c : op) : prog state ans :=
  match c with
  | OMalloc n => pmap ans_ptr (h_malloc g tid n)
  | OCalloc m n => pmap ans_ptr (h_calloc g tid m n)
  | ORealloc p n => pmap ans_ptr (h_realloc g tid p n)
  | OPosixMemalign al n => pmap ans_code (h_posix_memalign g tid al n)
  | OAlignedAlloc al n => pmap ans_ptr (h_aligned_alloc g tid al n)
  | OMemalign al n => pmap ans_ptr (h_aligned_alloc g tid al n)
  | OValloc n => pmap ans_ptr (h_valloc g tid n)
  | OPvalloc n => pmap ans_ptr (h_pvalloc g tid n)
  | OFree p => pmap (fun _ => AUnit) (h_free g p)
  | OFreeSized p n => pmap (fun _ => AUnit) (h_free_sized g p n)
  | OUsableSize p => pmap ASize (h_malloc_usable_size g p)
  | OObjectSize p => pmap ASize (h_malloc_object_size g p)
  | OObjectSizeFast p => pmap ASize (h_malloc_object_size_fast g p)
  | OTrim => pmap ABool (h_malloc_trim g)
  | OWrite x v => pmap (fun _ => AUnit) (act (store g x v))
  end.
