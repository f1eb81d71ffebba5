(** The text malloc_info writes. *)
From Coq Require Import String ZArith List Bool DecimalString.
From Verif Require Import M_Base M_Config M_SizeClass M_OS M_Slab M_Region M_Api M_Hist M_Stats.
Import ListNotations.
Open Scope Z_scope.

(** the conversions %u and PRIu32 (w = 32), PRIu64 and %zu (w = 64) of fprintf: decimal digits of the unsigned value *)
Definition print_unsigned (w n : Z) : string := NilZero.string_of_uint (N.to_uint (Z.to_N (n mod 2 ^ w))).
(** a double quote *)
Definition quote : string := String (Ascii.ascii_of_nat 34) EmptyString.
Definition cat (l : list string) : string := fold_right append EmptyString l.
(** the fprintf of one <bin>, h_malloc.c:2026-2032; [class_size g class] is size_classes[class] *)
Definition print_bin (g : config) (class nmalloc ndalloc slab_allocated allocated : Z) : string :=
  cat ["<bin nr="; quote; print_unsigned 32 class; quote; " size="; quote; print_unsigned 32 (class_size g class); quote; ">";
       "<nmalloc>"; print_unsigned 64 nmalloc; "</nmalloc>";
       "<ndalloc>"; print_unsigned 64 ndalloc; "</ndalloc>";
       "<slab_allocated>"; print_unsigned 64 slab_allocated; "</slab_allocated>";
       "<allocated>"; print_unsigned 64 allocated; "</allocated>";
       "</bin>"]%string.
(** the inner loop, h_malloc.c:2015-2034, over the classes that remain *)
Fixpoint print_bins (g : config) (arena : Z) (classes : list Z) : prog state string :=
  match classes with
  | [] => Ret ""%string
  | class :: t =>
      do! r := read_class g arena class in
      let '(nmalloc, ndalloc, slab_allocated, allocated) := r in
      let out := if negb (nmalloc =? 0) || negb (ndalloc =? 0) || negb (slab_allocated =? 0) || negb (allocated =? 0)
                 then print_bin g class nmalloc ndalloc slab_allocated allocated else ""%string in
      do! rest := print_bins g arena t in
      Ret (out ++ rest)%string
  end.
(** the outer loop, h_malloc.c:2012-2037, over the arenas that remain *)
Fixpoint print_heaps (g : config) (arenas : list Z) : prog state string :=
  match arenas with
  | [] => Ret ""%string
  | arena :: t =>
      do! bins := print_bins g arena (zrange 0 (N_SIZE_CLASSES g)) in
      do! rest := print_heaps g t in
      Ret (cat ["<heap nr="; quote; print_unsigned 32 arena; quote; ">"; bins; "</heap>"; rest])%string
  end.
(** h_malloc_info, h_malloc.c:2000-2055: the return value and everything written to the stream, in the order of the
    calls of fputs and fprintf.  Simplified: writing to the stream never fails, does not allocate and has no other
    effect. *)
Definition print_malloc_info (g : config) (options : Z) : prog state (Z * string) :=
  if negb (options =? 0) then set_errno_to EINVAL ;;; Ret (-1, ""%string)
  else
    let head := cat ["<malloc version="; quote; "hardened_malloc-1"; quote; ">"]%string in
    do! s := act get in
    if negb (STATS g) || negb (is_init s) then Ret (0, (head ++ "</malloc>")%string)
    else
      do! heaps := print_heaps g (zrange 0 (N_ARENA g)) in
      do! region_allocated := read_large in
      Ret (0, cat [head; heaps;
                   "<heap nr="; quote; print_unsigned 32 (N_ARENA g); quote; ">";
                   "<allocated_large>"; print_unsigned 64 region_allocated; "</allocated_large>"; "</heap>";
                   "</malloc>"]%string).
