(** The statistics functions: h_malloc.c:1949-2139 (CONFIG_STATS is [STATS]).
    Each critical section is one action, as in M_Api.v. *)
From Coq Require Import String ZArith List Bool.
From Verif Require Import M_Base M_Config M_SizeClass M_OS M_Random M_Slab M_Region M_Api.
Import ListNotations.
Open Scope Z_scope.

(** the fields of struct mallinfo / mallinfo2 that the code fills in; all are size_t *)
Record mallinfo : Type := mkInfo { hblkhd : Z; ordblks : Z; uordblks : Z; fordblks : Z; fsmblks : Z; usmblks : Z }.
Definition info_zero : mallinfo := mkInfo 0 0 0 0 0 0.

(** one critical section that reads the counters of a class: h_malloc.c:1983-1987,
    2023-2028, 2090-2094, 2129-2133: (nmalloc, ndalloc, slab_allocated, allocated) *)
Definition read_class (g : config) (a k : Z) : prog state (Z * Z * Z * Z) :=
  act (on_class g a k (gets (fun cs => let c := cs_c cs in (c_nmalloc c, c_ndalloc c, c_slab_allocated c, c_allocated c)))).
(** h_malloc.c:1973-1977, 2047-2050, 2098-2102 *)
Definition read_large : prog state Z := act (on_ra (gets (fun rs => ra_allocated (rs_ra rs)))).

(** the loops over classes that add slab_allocated to hblkhd and allocated to the sum of
    used bytes: h_malloc.c:1979-1989, 2087-2095 *)
Fixpoint sum_classes (g : config) (l : list (Z * Z)) (hblk used : Z) : prog state (Z * Z) :=
  match l with
  | [] => Ret (hblk, used)
  | (a, k) :: t =>
      do! r := read_class g a k in
      let '(_, _, sa, al) := r in
      sum_classes g t (w64 (hblk + sa)) (w64 (used + al))
  end.

(** h_mallinfo2 (glibc) and h_mallinfo (Android), h_malloc.c:1954-1996 *)
Definition h_mallinfo2 (g : config) : prog state mallinfo :=
  if negb (STATS g) then Ret info_zero
  else
    do! s := act get in
    if negb (is_init s) then Ret info_zero
    else
      do! large := read_large in
      do! r := sum_classes g (all_classes g) (w64 (0 + large)) (w64 (0 + large)) in
      let '(h, u) := r in
      Ret (mkInfo h 0 u (w64 (h - u)) 0 h).

(** one <bin> element of malloc_info, h_malloc.c:2030-2040 *)
Record bin : Type := mkBin { b_nr : Z; b_size : Z; b_nmalloc : Z; b_ndalloc : Z; b_slabs : Z; b_allocated : Z }.
(** what malloc_info prints: the <heap> elements of the arenas, each with its bins, and
    <allocated_large>; the text itself is in M_Info.v *)
Record report : Type := mkReport { r_heaps : list (Z * list bin); r_large : option Z }.
Fixpoint info_bins (g : config) (a : Z) (l : list Z) : prog state (list bin) :=
  match l with
  | [] => Ret []
  | k :: t =>
      do! r := read_class g a k in
      let '(nm, nd, sa, al) := r in
      do! rest := info_bins g a t in
      Ret (if (nm =? 0) && (nd =? 0) && (sa =? 0) && (al =? 0) then rest
           else mkBin k (class_size g k) nm nd sa al :: rest)
  end.
Fixpoint info_heaps (g : config) (l : list Z) : prog state (list (Z * list bin)) :=
  match l with
  | [] => Ret []
  | a :: t =>
      do! bins := info_bins g a (zrange 0 (N_SIZE_CLASSES g)) in
      do! rest := info_heaps g t in
      Ret ((a, bins) :: rest)
  end.
(** h_malloc_info, h_malloc.c:2000-2055: return value and what was printed (nothing if the
    options are rejected) *)
Definition h_malloc_info (g : config) (options : Z) : prog state (Z * option report) :=
  if negb (options =? 0) then set_errno_to EINVAL ;;; Ret (-1, None)
  else
    do! s := act get in
    if negb (STATS g) || negb (is_init s) then Ret (0, Some (mkReport [] None))
    else
      do! heaps := info_heaps g (zrange 0 (N_ARENA g)) in
      do! large := read_large in
      Ret (0, Some (mkReport heaps (Some large))).

(** h_malloc.c:2059-2067 *)
Definition h_mallinfo_narenas (g : config) : Z := N_ARENA g + 1.
Definition h_mallinfo_nbins (g : config) : Z := N_SIZE_CLASSES g.

(** h_mallinfo_arena_info, h_malloc.c:2077-2108 *)
Definition h_mallinfo_arena_info (g : config) (arena : Z) : prog state mallinfo :=
  if negb (STATS g) then Ret info_zero
  else
    do! s := act get in
    if negb (is_init s) then Ret info_zero
    else if arena <? N_ARENA g then
      do! r := sum_classes g (map (fun k => (arena, k)) (zrange 0 (N_SIZE_CLASSES g))) 0 0 in
      let '(h, u) := r in
      Ret (mkInfo h 0 0 0 u 0)
    else if arena =? N_ARENA g then
      do! large := read_large in
      Ret (mkInfo large 0 large 0 0 0)
    else Ret info_zero.

(** h_mallinfo_bin_info, h_malloc.c:2116-2139.  The code calls thread_seal_metadata before
    the critical section and thread_unseal_metadata after it, the wrong way round; the
    protection key is not part of this file. *)
Definition h_mallinfo_bin_info (g : config) (arena bin : Z) : prog state mallinfo :=
  if negb (STATS g) then Ret info_zero
  else
    do! s := act get in
    if negb (is_init s) then Ret info_zero
    else if (arena <? N_ARENA g) && (bin <? N_SIZE_CLASSES g) then
      do! r := read_class g arena bin in
      let '(nm, nd, _, al) := r in
      Ret (mkInfo 0 al nm nd 0 0)
    else Ret info_zero.
