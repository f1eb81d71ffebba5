(** Build-time configuration.
    Models config/default.mk, config/light.mk, the -D flags of Makefile and the
    static_asserts of h_malloc.c. *)
From Coq Require Import ZArith List Bool.
From Verif Require Import M_Base.
Import ListNotations.
Open Scope Z_scope.

Record config : Type := mkConfig {
  WRITE_AFTER_FREE_CHECK : bool;
  SLOT_RANDOMIZE : bool;
  ZERO_ON_FREE : bool;
  SLAB_CANARY : bool;
  SLAB_QUARANTINE_RANDOM_LENGTH : Z;
  SLAB_QUARANTINE_QUEUE_LENGTH : Z;
  EXTENDED_SIZE_CLASSES : bool;
  LARGE_SIZE_CLASSES : bool;
  GUARD_SLABS_INTERVAL : Z;
  GUARD_SIZE_DIVISOR : Z;
  REGION_QUARANTINE_RANDOM_LENGTH : Z;
  REGION_QUARANTINE_QUEUE_LENGTH : Z;
  REGION_QUARANTINE_SKIP_THRESHOLD : Z;
  FREE_SLABS_QUARANTINE_RANDOM_LENGTH : Z;
  CLASS_REGION_SIZE : Z;
  N_ARENA : Z;
  STATS : bool;
  (* offset of regions_a in struct allocator_state: layout chosen by the compiler *)
  OFF_REGIONS_A : Z
}.

(** h_malloc.c:29 *)
Definition MREMAP_MOVE_THRESHOLD : Z := 32 * 1024 * 1024.

(** h_malloc.c:27-28 *)
Definition SLAB_QUARANTINE (g : config) : bool :=
  (0 <? SLAB_QUARANTINE_RANDOM_LENGTH g) || (0 <? SLAB_QUARANTINE_QUEUE_LENGTH g).
Definition REGION_QUARANTINE (g : config) : bool :=
  (0 <? REGION_QUARANTINE_RANDOM_LENGTH g) || (0 <? REGION_QUARANTINE_QUEUE_LENGTH g).

(** h_malloc.c:56 *)
Definition canary_size (g : config) : Z := if SLAB_CANARY g then 8 else 0.

(** h_malloc.c:33-59, 753: all static_asserts on the configuration. *)
Definition in_range (x lo hi : Z) : bool := (lo <=? x) && (x <=? hi).
Definition static_asserts (g : config) : bool :=
  (negb (WRITE_AFTER_FREE_CHECK g) || ZERO_ON_FREE g)
  && in_range (SLAB_QUARANTINE_RANDOM_LENGTH g) 0 65536
  && in_range (SLAB_QUARANTINE_QUEUE_LENGTH g) 0 65536
  && in_range (REGION_QUARANTINE_RANDOM_LENGTH g) 0 65536
  && in_range (REGION_QUARANTINE_QUEUE_LENGTH g) 0 65536
  && in_range (FREE_SLABS_QUARANTINE_RANDOM_LENGTH g) 0 65536
  && (FREE_SLABS_QUARANTINE_RANDOM_LENGTH g <? 65535)
  && (1 <=? GUARD_SLABS_INTERVAL g)
  && (1 <=? GUARD_SIZE_DIVISOR g)
  && in_range (CLASS_REGION_SIZE g) 1048576 1099511627776
  && (0 <=? REGION_QUARANTINE_SKIP_THRESHOLD g)
  && (REGION_QUARANTINE_SKIP_THRESHOLD g <=? MREMAP_MOVE_THRESHOLD)
  && in_range (N_ARENA g) 1 256.

(** Requirements of the code that no static_assert checks (see C49): a page
    multiple as class region size, a non-empty free slab quarantine; and the
    layout constant is a positive page multiple (struct allocator_state,
    h_malloc.c:961-971, regions_a is page aligned and not first).  The interval
    and divisor are C ints (config values), hence below 2^31; the bound on
    OFF_REGIONS_A only says that the structure fits in the address space. *)
Definition usable_config (g : config) : bool :=
  static_asserts g
  && (CLASS_REGION_SIZE g mod 4096 =? 0)
  && (1 <=? FREE_SLABS_QUARANTINE_RANDOM_LENGTH g)
  && (GUARD_SLABS_INTERVAL g <? 2 ^ 31)
  && (GUARD_SIZE_DIVISOR g <? 2 ^ 31)
  && (OFF_REGIONS_A g mod 4096 =? 0)
  && in_range (OFF_REGIONS_A g) 4096 (2 ^ 48).

(** config/default.mk (lines 1-22) *)
Definition default_config : config := {|
  WRITE_AFTER_FREE_CHECK := true;
  SLOT_RANDOMIZE := true;
  ZERO_ON_FREE := true;
  SLAB_CANARY := true;
  SLAB_QUARANTINE_RANDOM_LENGTH := 1;
  SLAB_QUARANTINE_QUEUE_LENGTH := 1;
  EXTENDED_SIZE_CLASSES := true;
  LARGE_SIZE_CLASSES := true;
  GUARD_SLABS_INTERVAL := 1;
  GUARD_SIZE_DIVISOR := 2;
  REGION_QUARANTINE_RANDOM_LENGTH := 256;
  REGION_QUARANTINE_QUEUE_LENGTH := 1024;
  REGION_QUARANTINE_SKIP_THRESHOLD := 33554432;
  FREE_SLABS_QUARANTINE_RANDOM_LENGTH := 32;
  CLASS_REGION_SIZE := 34359738368;
  N_ARENA := 4;
  STATS := false;
  OFF_REGIONS_A := 27443200 |}.

(** config/light.mk (lines 1-22) *)
Definition light_config : config := {|
  WRITE_AFTER_FREE_CHECK := false;
  SLOT_RANDOMIZE := false;
  ZERO_ON_FREE := true;
  SLAB_CANARY := true;
  SLAB_QUARANTINE_RANDOM_LENGTH := 0;
  SLAB_QUARANTINE_QUEUE_LENGTH := 0;
  EXTENDED_SIZE_CLASSES := true;
  LARGE_SIZE_CLASSES := true;
  GUARD_SLABS_INTERVAL := 8;
  GUARD_SIZE_DIVISOR := 2;
  REGION_QUARANTINE_RANDOM_LENGTH := 256;
  REGION_QUARANTINE_QUEUE_LENGTH := 1024;
  REGION_QUARANTINE_SKIP_THRESHOLD := 33554432;
  FREE_SLABS_QUARANTINE_RANDOM_LENGTH := 32;
  CLASS_REGION_SIZE := 34359738368;
  N_ARENA := 4;
  STATS := false;
  OFF_REGIONS_A := 819200 |}.
