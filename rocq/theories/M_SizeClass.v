(** Size classes: h_malloc.c:126-245, 295-310, 1323-1342, 1447-1452. *)
From Coq Require Import String ZArith List Bool.
From Verif Require Import M_Base M_Config.
Import ListNotations.
Open Scope Z_scope.

(** h_malloc.c:126-139 *)
Definition min_align : Z := 16.
Definition MIN_SLAB_SIZE_CLASS_SHIFT : Z := 4.
Definition max_slab_size_class (g : config) : Z :=
  if EXTENDED_SIZE_CLASSES g then 131072 else 16384.
Definition MAX_SLAB_SIZE_CLASS_SHIFT (g : config) : Z :=
  if EXTENDED_SIZE_CLASSES g then 17 else 14.
Definition max_empty_slabs_total (g : config) : Z :=
  if EXTENDED_SIZE_CLASSES g then max_slab_size_class g else max_slab_size_class g * 4.
(** h_malloc.c:141-143 *)
Definition min_extended_size_class : Z := 20480.

(** h_malloc.c:145-160 *)
Definition size_classes (g : config) : list Z :=
  [ 0;
    16; 32; 48; 64; 80; 96; 112; 128;
    160; 192; 224; 256;
    320; 384; 448; 512;
    640; 768; 896; 1024;
    1280; 1536; 1792; 2048;
    2560; 3072; 3584; 4096;
    5120; 6144; 7168; 8192;
    10240; 12288; 14336; 16384 ] ++
  if EXTENDED_SIZE_CLASSES g then
  [ 20480; 24576; 28672; 32768;
    40960; 49152; 57344; 65536;
    81920; 98304; 114688; 131072 ] else [].

(** h_malloc.c:162-177 *)
Definition size_class_slots (g : config) : list Z :=
  [ 256;
    256; 128; 85; 64; 51; 42; 36; 64;
    51; 64; 54; 64;
    64; 64; 64; 64;
    64; 64; 64; 64;
    16; 16; 16; 16;
    8; 8; 8; 8;
    8; 8; 8; 8;
    6; 5; 4; 4 ] ++
  if EXTENDED_SIZE_CLASSES g then
  [ 1; 1; 1; 1;
    1; 1; 1; 1;
    1; 1; 1; 1 ] else [].

(** h_malloc.c:205 *)
Definition N_SIZE_CLASSES (g : config) : Z := zlen (size_classes g).

(** size_classes[class]; the callers only use class < N_SIZE_CLASSES *)
Definition class_size (g : config) (class : Z) : Z :=
  match lget (size_classes g) class with Some x => x | None => 0 end.
(** h_malloc.c:179-181 *)
Definition get_slots (g : config) (class : Z) : Z :=
  match lget (size_class_slots g) class with Some x => x | None => 0 end.

(** h_malloc.c:207-210 *)
Record size_info : Type := mkSizeInfo { si_size : Z; si_class : Z }.

(** h_malloc.c:212-230.  All arithmetic is in size_t. *)
Definition get_size_info (size : Z) : size_info :=
  if size =? 0 then mkSizeInfo 0 0
  else if size <=? 128 then mkSizeInfo (c_align size 16) (w64 (Z.shiftr (w64 (size - 1)) 4 + 1))
  else
    let initial_spacing_multiplier := 5 in
    let special_small_sizes := 5 in
    let spacing_class_shift := w64 (log2u64 (w64 (size - 1)) - 2) in
    let spacing_class := w64 (Z.shiftl 1 spacing_class_shift) in
    let real_size := c_align size spacing_class in
    let spacing_class_index := w64 (Z.shiftr real_size spacing_class_shift - initial_spacing_multiplier) in
    let index := w64 ((spacing_class_shift - 4) * 4 + special_small_sizes + spacing_class_index) in
    mkSizeInfo real_size index.

(** h_malloc.c:233-241.  The loop over classes 1 .. N_SIZE_CLASSES-1; [None] is
    the fatal_error("invalid size for slabs") after the loop. *)
Fixpoint find_aligned_class (l : list Z) (class : Z) (size alignment : Z) : option size_info :=
  match l with
  | [] => None
  | real_size :: t =>
      if (size <=? real_size) && (Z.land real_size (w64 (alignment - 1)) =? 0)
      then Some (mkSizeInfo real_size class)
      else find_aligned_class t (class + 1) size alignment
  end.
Definition get_size_info_align (g : config) (size alignment : Z) : option size_info :=
  find_aligned_class (tl (size_classes g)) 1 size alignment.

(** h_malloc.c:243-245 *)
Definition get_slab_size (slots size : Z) : Z := page_align (w64 (slots * size)).

(** the size used for slots: size_classes[class], 16 for the zero-size class
    (h_malloc.c:600, 780-783, 1273-1276, 1727-1730) *)
Definition slot_size (g : config) (class : Z) : Z :=
  if class_size g class =? 0 then 16 else class_size g class.
Definition slab_size_of (g : config) (class : Z) : Z :=
  get_slab_size (get_slots g class) (slot_size g class).

(** h_malloc.c:295-298 *)
Definition REAL_CLASS_REGION_SIZE (g : config) : Z := CLASS_REGION_SIZE g * 2.
Definition ARENA_SIZE (g : config) : Z := REAL_CLASS_REGION_SIZE g * N_SIZE_CLASSES g.
Definition slab_region_size (g : config) : Z := ARENA_SIZE g * N_ARENA g.

(** h_malloc.c:306-310 *)
Definition MAX_METADATA_MAX (g : config) : Z := CLASS_REGION_SIZE g / PAGE_SIZE.
Definition get_metadata_max (g : config) (slab_size : Z) : Z := CLASS_REGION_SIZE g / slab_size.

(** sizeof(struct slab_metadata), h_malloc.c:99-124 without HAS_ARM_MTE:
    bitmap 32, next 8, prev 8, canary 8 (optional), count 2 padded to 8,
    quarantine_bitmap 32 (optional). *)
Definition sizeof_slab_metadata (g : config) : Z :=
  48 + canary_size g + 8 + (if SLAB_QUARANTINE g then 32 else 0).

(** sizeof(struct region_metadata), h_malloc.c:913-917 *)
Definition sizeof_region_metadata : Z := 24.
(** h_malloc.c:924-925 *)
Definition INITIAL_REGION_TABLE_SIZE : Z := 128.
Definition MAX_REGION_TABLE_SIZE (g : config) : Z :=
  CLASS_REGION_SIZE g / PAGE_SIZE / sizeof_region_metadata.

(** struct allocator_state, h_malloc.c:957-971: offsets of the page aligned
    members regions_b and slab_info_mapping, and the total size. *)
Definition regions_bytes (g : config) : Z :=
  page_align (MAX_REGION_TABLE_SIZE g * sizeof_region_metadata).
Definition OFF_REGIONS_B (g : config) : Z := OFF_REGIONS_A g + regions_bytes g.
Definition OFF_SLAB_INFO (g : config) : Z := OFF_REGIONS_B g + regions_bytes g.
Definition sizeof_slab_info_mapping (g : config) : Z :=
  page_align (MAX_METADATA_MAX g * sizeof_slab_metadata g).
Definition sizeof_allocator_state (g : config) : Z :=
  OFF_SLAB_INFO g + N_ARENA g * N_SIZE_CLASSES g * sizeof_slab_info_mapping g.

(** h_malloc.c:1323-1338, 0 on overflow *)
Definition get_large_size_class (g : config) (size : Z) : Z :=
  if LARGE_SIZE_CLASSES g then si_size (get_size_info (Z.max size PAGE_SIZE))
  else page_align size.

(** h_malloc.c:1447-1452 *)
Definition adjust_size_for_canary (g : config) (size : Z) : Z :=
  if (0 <? size) && (size <=? max_slab_size_class g) then w64 (size + canary_size g) else size.

(** clz64(size) - (63 - MAX_SLAB_SIZE_CLASS_SHIFT), h_malloc.c:827, 1916 *)
Definition quarantine_shift (g : config) (size : Z) : Z :=
  clz64 size - (63 - MAX_SLAB_SIZE_CLASS_SHIFT g).
(** h_malloc.c:830, 845, 1919, 1929 *)
Definition slab_quarantine_random_length (g : config) (size : Z) : Z :=
  Z.shiftl (SLAB_QUARANTINE_RANDOM_LENGTH g) (quarantine_shift g size).
Definition slab_quarantine_queue_length (g : config) (size : Z) : Z :=
  Z.shiftl (SLAB_QUARANTINE_QUEUE_LENGTH g) (quarantine_shift g size).
(** array dimensions, h_malloc.c:256, 260 *)
Definition quarantine_random_dim (g : config) : Z :=
  Z.shiftl (SLAB_QUARANTINE_RANDOM_LENGTH g) (MAX_SLAB_SIZE_CLASS_SHIFT g - MIN_SLAB_SIZE_CLASS_SHIFT).
Definition quarantine_queue_dim (g : config) : Z :=
  Z.shiftl (SLAB_QUARANTINE_QUEUE_LENGTH g) (MAX_SLAB_SIZE_CLASS_SHIFT g - MIN_SLAB_SIZE_CLASS_SHIFT).
