(** Slab metadata and the operations on one size class (one arena, one class):
    h_malloc.c:99-124, 247-293, 301-564, 598-911, 1722-1758, 1808-1841, 1877-1947.
    Not modelled here: the HAS_ARM_MTE branches (see M_Mte.v), locking (an
    operation of this file is one critical section of the class lock).
    All pointers to slab_metadata are indices into slab_info. *)
From Coq Require Import String ZArith List Bool.
From Verif Require Import M_Base M_Config M_SizeClass M_Libdivide M_OS M_Chacha M_Random.
Import ListNotations.
Open Scope Z_scope.

(** struct slab_metadata, h_malloc.c:99-124; [None] is NULL *)
Record slab : Type := mkSlab {
  sb_bitmap : list Z;
  sb_next : option Z;
  sb_prev : option Z;
  sb_canary : Z;
  sb_count : Z;
  sb_qbitmap : list Z
}.
Definition set_sb_bitmap (x : list Z) (m : slab) : slab :=
  mkSlab x (sb_next m) (sb_prev m) (sb_canary m) (sb_count m) (sb_qbitmap m).
Definition set_sb_next (x : option Z) (m : slab) : slab :=
  mkSlab (sb_bitmap m) x (sb_prev m) (sb_canary m) (sb_count m) (sb_qbitmap m).
Definition set_sb_prev (x : option Z) (m : slab) : slab :=
  mkSlab (sb_bitmap m) (sb_next m) x (sb_canary m) (sb_count m) (sb_qbitmap m).
Definition set_sb_canary (x : Z) (m : slab) : slab :=
  mkSlab (sb_bitmap m) (sb_next m) (sb_prev m) x (sb_count m) (sb_qbitmap m).
Definition set_sb_count (x : Z) (m : slab) : slab :=
  mkSlab (sb_bitmap m) (sb_next m) (sb_prev m) (sb_canary m) x (sb_qbitmap m).
Definition set_sb_qbitmap (x : list Z) (m : slab) : slab :=
  mkSlab (sb_bitmap m) (sb_next m) (sb_prev m) (sb_canary m) (sb_count m) x.
(** zero pages *)
Definition slab_zero : slab := mkSlab [0; 0; 0; 0] None None 0 0 [0; 0; 0; 0].

(** struct size_class, h_malloc.c:247-293 (without the lock) *)
Record size_class : Type := mkClass {
  c_start : Z  (* class_region_start *);
  c_info : Z  (* slab_info (address) *);
  c_size_div : divider  (* size_divisor *);
  c_slab_div : divider  (* slab_size_divisor *);
  c_qrandom : list Z  (* quarantine_random, 0 = NULL *);
  c_qqueue : list Z  (* quarantine_queue, 0 = NULL *);
  c_qqidx : Z  (* quarantine_queue_index *);
  c_partial : option Z  (* partial_slabs *);
  c_empty : option Z  (* empty_slabs *);
  c_empty_total : Z  (* empty_slabs_total *);
  c_fhead : option Z  (* free_slabs_head *);
  c_ftail : option Z  (* free_slabs_tail *);
  c_fq : list (option Z)  (* free_slabs_quarantine *);
  c_nmalloc : Z  (* stats *);
  c_ndalloc : Z  (* stats *);
  c_allocated : Z  (* stats *);
  c_slab_allocated : Z  (* stats *);
  c_rng : random_state  (* rng *);
  c_mallocated : Z  (* metadata_allocated *);
  c_mcount : Z  (* metadata_count *);
  c_munguarded : Z  (* metadata_count_unguarded *);
  c_slabs : Z -> slab  (* the array behind slab_info *)
}.
Definition set_c_start (x : Z) (c : size_class) : size_class :=
  mkClass x (c_info c) (c_size_div c) (c_slab_div c) (c_qrandom c) (c_qqueue c) (c_qqidx c) (c_partial c) (c_empty c) (c_empty_total c) (c_fhead c) (c_ftail c) (c_fq c) (c_nmalloc c) (c_ndalloc c) (c_allocated c) (c_slab_allocated c) (c_rng c) (c_mallocated c) (c_mcount c) (c_munguarded c) (c_slabs c).
Definition set_c_info (x : Z) (c : size_class) : size_class :=
  mkClass (c_start c) x (c_size_div c) (c_slab_div c) (c_qrandom c) (c_qqueue c) (c_qqidx c) (c_partial c) (c_empty c) (c_empty_total c) (c_fhead c) (c_ftail c) (c_fq c) (c_nmalloc c) (c_ndalloc c) (c_allocated c) (c_slab_allocated c) (c_rng c) (c_mallocated c) (c_mcount c) (c_munguarded c) (c_slabs c).
Definition set_c_size_div (x : divider) (c : size_class) : size_class :=
  mkClass (c_start c) (c_info c) x (c_slab_div c) (c_qrandom c) (c_qqueue c) (c_qqidx c) (c_partial c) (c_empty c) (c_empty_total c) (c_fhead c) (c_ftail c) (c_fq c) (c_nmalloc c) (c_ndalloc c) (c_allocated c) (c_slab_allocated c) (c_rng c) (c_mallocated c) (c_mcount c) (c_munguarded c) (c_slabs c).
Definition set_c_slab_div (x : divider) (c : size_class) : size_class :=
  mkClass (c_start c) (c_info c) (c_size_div c) x (c_qrandom c) (c_qqueue c) (c_qqidx c) (c_partial c) (c_empty c) (c_empty_total c) (c_fhead c) (c_ftail c) (c_fq c) (c_nmalloc c) (c_ndalloc c) (c_allocated c) (c_slab_allocated c) (c_rng c) (c_mallocated c) (c_mcount c) (c_munguarded c) (c_slabs c).
Definition set_c_qrandom (x : list Z) (c : size_class) : size_class :=
  mkClass (c_start c) (c_info c) (c_size_div c) (c_slab_div c) x (c_qqueue c) (c_qqidx c) (c_partial c) (c_empty c) (c_empty_total c) (c_fhead c) (c_ftail c) (c_fq c) (c_nmalloc c) (c_ndalloc c) (c_allocated c) (c_slab_allocated c) (c_rng c) (c_mallocated c) (c_mcount c) (c_munguarded c) (c_slabs c).
Definition set_c_qqueue (x : list Z) (c : size_class) : size_class :=
  mkClass (c_start c) (c_info c) (c_size_div c) (c_slab_div c) (c_qrandom c) x (c_qqidx c) (c_partial c) (c_empty c) (c_empty_total c) (c_fhead c) (c_ftail c) (c_fq c) (c_nmalloc c) (c_ndalloc c) (c_allocated c) (c_slab_allocated c) (c_rng c) (c_mallocated c) (c_mcount c) (c_munguarded c) (c_slabs c).
Definition set_c_qqidx (x : Z) (c : size_class) : size_class :=
  mkClass (c_start c) (c_info c) (c_size_div c) (c_slab_div c) (c_qrandom c) (c_qqueue c) x (c_partial c) (c_empty c) (c_empty_total c) (c_fhead c) (c_ftail c) (c_fq c) (c_nmalloc c) (c_ndalloc c) (c_allocated c) (c_slab_allocated c) (c_rng c) (c_mallocated c) (c_mcount c) (c_munguarded c) (c_slabs c).
Definition set_c_partial (x : option Z) (c : size_class) : size_class :=
  mkClass (c_start c) (c_info c) (c_size_div c) (c_slab_div c) (c_qrandom c) (c_qqueue c) (c_qqidx c) x (c_empty c) (c_empty_total c) (c_fhead c) (c_ftail c) (c_fq c) (c_nmalloc c) (c_ndalloc c) (c_allocated c) (c_slab_allocated c) (c_rng c) (c_mallocated c) (c_mcount c) (c_munguarded c) (c_slabs c).
Definition set_c_empty (x : option Z) (c : size_class) : size_class :=
  mkClass (c_start c) (c_info c) (c_size_div c) (c_slab_div c) (c_qrandom c) (c_qqueue c) (c_qqidx c) (c_partial c) x (c_empty_total c) (c_fhead c) (c_ftail c) (c_fq c) (c_nmalloc c) (c_ndalloc c) (c_allocated c) (c_slab_allocated c) (c_rng c) (c_mallocated c) (c_mcount c) (c_munguarded c) (c_slabs c).
Definition set_c_empty_total (x : Z) (c : size_class) : size_class :=
  mkClass (c_start c) (c_info c) (c_size_div c) (c_slab_div c) (c_qrandom c) (c_qqueue c) (c_qqidx c) (c_partial c) (c_empty c) x (c_fhead c) (c_ftail c) (c_fq c) (c_nmalloc c) (c_ndalloc c) (c_allocated c) (c_slab_allocated c) (c_rng c) (c_mallocated c) (c_mcount c) (c_munguarded c) (c_slabs c).
Definition set_c_fhead (x : option Z) (c : size_class) : size_class :=
  mkClass (c_start c) (c_info c) (c_size_div c) (c_slab_div c) (c_qrandom c) (c_qqueue c) (c_qqidx c) (c_partial c) (c_empty c) (c_empty_total c) x (c_ftail c) (c_fq c) (c_nmalloc c) (c_ndalloc c) (c_allocated c) (c_slab_allocated c) (c_rng c) (c_mallocated c) (c_mcount c) (c_munguarded c) (c_slabs c).
Definition set_c_ftail (x : option Z) (c : size_class) : size_class :=
  mkClass (c_start c) (c_info c) (c_size_div c) (c_slab_div c) (c_qrandom c) (c_qqueue c) (c_qqidx c) (c_partial c) (c_empty c) (c_empty_total c) (c_fhead c) x (c_fq c) (c_nmalloc c) (c_ndalloc c) (c_allocated c) (c_slab_allocated c) (c_rng c) (c_mallocated c) (c_mcount c) (c_munguarded c) (c_slabs c).
Definition set_c_fq (x : list (option Z)) (c : size_class) : size_class :=
  mkClass (c_start c) (c_info c) (c_size_div c) (c_slab_div c) (c_qrandom c) (c_qqueue c) (c_qqidx c) (c_partial c) (c_empty c) (c_empty_total c) (c_fhead c) (c_ftail c) x (c_nmalloc c) (c_ndalloc c) (c_allocated c) (c_slab_allocated c) (c_rng c) (c_mallocated c) (c_mcount c) (c_munguarded c) (c_slabs c).
Definition set_c_nmalloc (x : Z) (c : size_class) : size_class :=
  mkClass (c_start c) (c_info c) (c_size_div c) (c_slab_div c) (c_qrandom c) (c_qqueue c) (c_qqidx c) (c_partial c) (c_empty c) (c_empty_total c) (c_fhead c) (c_ftail c) (c_fq c) x (c_ndalloc c) (c_allocated c) (c_slab_allocated c) (c_rng c) (c_mallocated c) (c_mcount c) (c_munguarded c) (c_slabs c).
Definition set_c_ndalloc (x : Z) (c : size_class) : size_class :=
  mkClass (c_start c) (c_info c) (c_size_div c) (c_slab_div c) (c_qrandom c) (c_qqueue c) (c_qqidx c) (c_partial c) (c_empty c) (c_empty_total c) (c_fhead c) (c_ftail c) (c_fq c) (c_nmalloc c) x (c_allocated c) (c_slab_allocated c) (c_rng c) (c_mallocated c) (c_mcount c) (c_munguarded c) (c_slabs c).
Definition set_c_allocated (x : Z) (c : size_class) : size_class :=
  mkClass (c_start c) (c_info c) (c_size_div c) (c_slab_div c) (c_qrandom c) (c_qqueue c) (c_qqidx c) (c_partial c) (c_empty c) (c_empty_total c) (c_fhead c) (c_ftail c) (c_fq c) (c_nmalloc c) (c_ndalloc c) x (c_slab_allocated c) (c_rng c) (c_mallocated c) (c_mcount c) (c_munguarded c) (c_slabs c).
Definition set_c_slab_allocated (x : Z) (c : size_class) : size_class :=
  mkClass (c_start c) (c_info c) (c_size_div c) (c_slab_div c) (c_qrandom c) (c_qqueue c) (c_qqidx c) (c_partial c) (c_empty c) (c_empty_total c) (c_fhead c) (c_ftail c) (c_fq c) (c_nmalloc c) (c_ndalloc c) (c_allocated c) x (c_rng c) (c_mallocated c) (c_mcount c) (c_munguarded c) (c_slabs c).
Definition set_c_rng (x : random_state) (c : size_class) : size_class :=
  mkClass (c_start c) (c_info c) (c_size_div c) (c_slab_div c) (c_qrandom c) (c_qqueue c) (c_qqidx c) (c_partial c) (c_empty c) (c_empty_total c) (c_fhead c) (c_ftail c) (c_fq c) (c_nmalloc c) (c_ndalloc c) (c_allocated c) (c_slab_allocated c) x (c_mallocated c) (c_mcount c) (c_munguarded c) (c_slabs c).
Definition set_c_mallocated (x : Z) (c : size_class) : size_class :=
  mkClass (c_start c) (c_info c) (c_size_div c) (c_slab_div c) (c_qrandom c) (c_qqueue c) (c_qqidx c) (c_partial c) (c_empty c) (c_empty_total c) (c_fhead c) (c_ftail c) (c_fq c) (c_nmalloc c) (c_ndalloc c) (c_allocated c) (c_slab_allocated c) (c_rng c) x (c_mcount c) (c_munguarded c) (c_slabs c).
Definition set_c_mcount (x : Z) (c : size_class) : size_class :=
  mkClass (c_start c) (c_info c) (c_size_div c) (c_slab_div c) (c_qrandom c) (c_qqueue c) (c_qqidx c) (c_partial c) (c_empty c) (c_empty_total c) (c_fhead c) (c_ftail c) (c_fq c) (c_nmalloc c) (c_ndalloc c) (c_allocated c) (c_slab_allocated c) (c_rng c) (c_mallocated c) x (c_munguarded c) (c_slabs c).
Definition set_c_munguarded (x : Z) (c : size_class) : size_class :=
  mkClass (c_start c) (c_info c) (c_size_div c) (c_slab_div c) (c_qrandom c) (c_qqueue c) (c_qqidx c) (c_partial c) (c_empty c) (c_empty_total c) (c_fhead c) (c_ftail c) (c_fq c) (c_nmalloc c) (c_ndalloc c) (c_allocated c) (c_slab_allocated c) (c_rng c) (c_mallocated c) (c_mcount c) x (c_slabs c).
Definition set_c_slabs (x : Z -> slab) (c : size_class) : size_class :=
  mkClass (c_start c) (c_info c) (c_size_div c) (c_slab_div c) (c_qrandom c) (c_qqueue c) (c_qqidx c) (c_partial c) (c_empty c) (c_empty_total c) (c_fhead c) (c_ftail c) (c_fq c) (c_nmalloc c) (c_ndalloc c) (c_allocated c) (c_slab_allocated c) (c_rng c) (c_mallocated c) (c_mcount c) (c_munguarded c) x.

(** state of an operation on one class *)
Record cstate : Type := mkCst { cs_os : os; cs_c : size_class }.
Definition set_cs_os (o : os) (s : cstate) : cstate := mkCst o (cs_c s).
Definition set_cs_c (c : size_class) (s : cstate) : cstate := mkCst (cs_os s) c.
Definition upd_c (f : size_class -> size_class) : M cstate unit := modify (fun s => set_cs_c (f (cs_c s)) s).
Definition c_sys {A} (m : M os A) : M cstate A := zoom cs_os set_cs_os m.
(** operations on c->rng *)
Definition c_rand {A} (m : M rstate A) : M cstate A :=
  zoom (fun s => mkRst (cs_os s) (c_rng (cs_c s)))
       (fun r s => mkCst (r_os r) (set_c_rng (r_rng r) (cs_c s))) m.

(** metadata->...: slab_info[i]; the pages behind the first metadata_allocated
    records are accessible, the rest fault *)
Definition md (i : Z) : M cstate slab :=
  let! c := gets cs_c in
  if (0 <=? i) && (i <? c_mallocated c) then ret (c_slabs c i) else fail Segv.
Definition set_md (i : Z) (m : slab) : M cstate unit :=
  let! c := gets cs_c in
  if (0 <=? i) && (i <? c_mallocated c)
  then upd_c (fun c => set_c_slabs (fupd (c_slabs c) i m) c) else fail Segv.
Definition upd_md (i : Z) (f : slab -> slab) : M cstate unit :=
  let! m := md i in set_md i (f m).

(** h_malloc.c:301-304 *)
Definition get_slab (c : size_class) (slab_size i : Z) : Z := w64 (c_start c + w64 (i * slab_size)).

(** ** Bitmaps: h_malloc.c:343-451 (SLAB_METADATA_COUNT is defined, line 97) *)
Definition word64 (l : list Z) (i : Z) : Z := match lget l i with Some x => x | None => 0 end.
Definition in_bitmap (index : Z) : bool := (0 <=? index) && (index <? 256).
(** bitmap[index / 64] |= 1UL << (index - bucket * 64) *)
Definition bm_set (bm : list Z) (index : Z) : list Z :=
  let bucket := index / 64 in
  lset bm bucket (Z.lor (word64 bm bucket) (Z.shiftl 1 (index - bucket * 64))).
(** bitmap[bucket] &= ~(1UL << ...) *)
Definition bm_clear (bm : list Z) (index : Z) : list Z :=
  let bucket := index / 64 in
  lset bm bucket (Z.land (word64 bm bucket) (SIZE_MAX - Z.shiftl 1 (index - bucket * 64))).
Definition bm_get (bm : list Z) (index : Z) : bool :=
  let bucket := index / 64 in
  negb (Z.land (Z.shiftr (word64 bm bucket) (index - bucket * 64)) 1 =? 0).

(** bitmap accesses out of the 4-word array are UB *)
Definition chk_bitmap {S} (index : Z) : M S unit :=
  if in_bitmap index then ret tt else fail (UB "slab bitmap index out of bounds").
(** h_malloc.c:343-349 *)
Definition set_used_slot (i index : Z) : M cstate unit :=
  chk_bitmap index;;
  upd_md i (fun m => set_sb_count (w16 (sb_count m + 1)) (set_sb_bitmap (bm_set (sb_bitmap m) index) m)).
(** h_malloc.c:351-357 *)
Definition clear_used_slot (i index : Z) : M cstate unit :=
  chk_bitmap index;;
  upd_md i (fun m => set_sb_count (w16 (sb_count m - 1)) (set_sb_bitmap (bm_clear (sb_bitmap m) index) m)).
(** h_malloc.c:359-362 *)
Definition is_used_slot (m : slab) (index : Z) : M cstate bool :=
  chk_bitmap index;; ret (bm_get (sb_bitmap m) index).
(** h_malloc.c:365-378 *)
Definition set_quarantine_slot (i index : Z) : M cstate unit :=
  chk_bitmap index;;
  upd_md i (fun m => set_sb_qbitmap (bm_set (sb_qbitmap m) index) m).
Definition clear_quarantine_slot (i index : Z) : M cstate unit :=
  chk_bitmap index;;
  upd_md i (fun m => set_sb_qbitmap (bm_clear (sb_qbitmap m) index) m).
Definition is_quarantine_slot (m : slab) (index : Z) : M cstate bool :=
  chk_bitmap index;; ret (bm_get (sb_qbitmap m) index).

(** h_malloc.c:381-383 *)
Definition get_mask (slots : Z) : Z := if slots <? 64 then w64 (Z.shiftl SIZE_MAX slots) else 0.

(** h_malloc.c:396-409: the endless search loop of the randomized variant; it visits
    at most all four words and the first one again *)
Fixpoint free_slot_loop (fuel : nat) (slots i : Z) (bm : list Z) (masked : Z) : option Z :=
  match fuel with
  | O => None
  | S f =>
      let masked := if i =? slots / 64 then Z.lor masked (get_mask (slots - i * 64)) else masked in
      if negb (masked =? SIZE_MAX) then Some (ffz64 masked - 1 + i * 64)
      else
        let i' := if i =? (slots - 1) / 64 then 0 else i + 1 in
        free_slot_loop f slots i' bm (word64 bm i')
  end.
(** first pass with a random start: h_malloc.c:387-409 *)
Definition free_slot_random (slots random_index : Z) (bm : list Z) : option Z :=
  let first_bitmap := random_index / 64 in
  let random_split := SIZE_MAX - w64 (Z.shiftl SIZE_MAX (random_index - first_bitmap * 64)) in
  free_slot_loop 6 slots first_bitmap bm (Z.lor (word64 bm first_bitmap) random_split).
(** h_malloc.c:410-421: i = 0 .. (slots - 1) / 64 *)
Fixpoint free_slot_linear (l : list Z) (slots : Z) (bm : list Z) : option Z :=
  match l with
  | [] => None
  | i :: t =>
      let masked := word64 bm i in
      let masked := if i =? (slots - 1) / 64 then Z.lor masked (get_mask (slots - i * 64)) else masked in
      if negb (masked =? SIZE_MAX) then Some (ffz64 masked - 1 + i * 64)
      else free_slot_linear t slots bm
  end.
(** h_malloc.c:385-421 *)
Definition get_free_slot (g : config) (slots : Z) (i : Z) : M cstate Z :=
  if SLOT_RANDOMIZE g then
    let! random_index := c_rand (get_random_u16_uniform slots) in
    let! m := md i in
    match free_slot_random slots random_index (sb_bitmap m) with
    | Some slot => ret slot
    | None => fail Hang
    end
  else
    let! m := md i in
    match free_slot_linear (zrange 0 ((slots - 1) / 64 + 1)) slots (sb_bitmap m) with
    | Some slot => ret slot
    | None => fatal "no zero bits"
    end.

(** h_malloc.c:423-451 *)
Definition has_free_slots (slots : Z) (m : slab) : bool := sb_count m <? slots.
Definition is_free_slab (m : slab) : bool := sb_count m =? 0.

(** h_malloc.c:453-461 *)
Definition get_metadata (p : Z) : M cstate Z :=
  let! c := gets cs_c in
  let offset := w64 (p - c_start c) in
  let index := libdivide_u64_do offset (c_slab_div c) in
  if c_mallocated c <=? index then fatal "invalid free within a slab yet to be used"
  else ret index.

(** h_malloc.c:463-465 *)
Definition slot_pointer (size slab slot : Z) : Z := w64 (slab + w64 (slot * size)).

(** h_malloc.c:467-483 without MTE: the loop reads 8-byte words until size *)
Definition write_after_free_check (g : config) (p size : Z) : M os unit :=
  if negb (WRITE_AFTER_FREE_CHECK g) then ret tt
  else
    let! l := load_bytes p ((size + 7) / 8 * 8) in
    if forallb (fun b => b =? 0) l then ret tt else fatal "detected write after free".

(** h_malloc.c:485-503, little endian: lowest byte cleared *)
Definition set_slab_canary_value (g : config) (i : Z) : M cstate unit :=
  if SLAB_CANARY g then
    let! v := c_rand get_random_u64 in
    upd_md i (set_sb_canary (Z.land v (SIZE_MAX - 255)))
  else ret tt.
(** h_malloc.c:505-515 *)
Definition set_canary (g : config) (i p size : Z) : M cstate unit :=
  if SLAB_CANARY g then
    let! m := md i in
    c_sys (store_u64 (w64 (p + size - canary_size g)) (sb_canary m))
  else ret tt.
(** h_malloc.c:517-538 *)
Definition check_canary (g : config) (i p size : Z) : M cstate unit :=
  if SLAB_CANARY g then
    let! v := c_sys (load_u64 (w64 (p + size - canary_size g))) in
    let! m := md i in
    if negb (v =? sb_canary m) then fatal "canary corrupted" else ret tt
  else ret tt.

(** h_malloc.c:540-564 *)
Definition stats_small_allocate (g : config) (size : Z) : M cstate unit :=
  if STATS g then upd_c (fun c => set_c_nmalloc (w64 (c_nmalloc c + 1)) (set_c_allocated (w64 (c_allocated c + size)) c))
  else ret tt.
Definition stats_small_deallocate (g : config) (size : Z) : M cstate unit :=
  if STATS g then upd_c (fun c => set_c_ndalloc (w64 (c_ndalloc c + 1)) (set_c_allocated (w64 (c_allocated c - size)) c))
  else ret tt.
Definition stats_slab_allocate (g : config) (slab_size : Z) : M cstate unit :=
  if STATS g then upd_c (fun c => set_c_slab_allocated (w64 (c_slab_allocated c + slab_size)) c) else ret tt.
Definition stats_slab_deallocate (g : config) (slab_size : Z) : M cstate unit :=
  if STATS g then upd_c (fun c => set_c_slab_allocated (w64 (c_slab_allocated c - slab_size)) c) else ret tt.

(** h_malloc.c:312-341 *)
Definition alloc_metadata (g : config) (slab_size : Z) (non_zero_size : bool) : M cstate (option Z) :=
  let! c := gets cs_c in
  let! ok :=
    (if c_mallocated c <=? c_mcount c then
       let metadata_max := get_metadata_max g slab_size in
       if metadata_max <=? c_mcount c then
         c_sys (modify (set_errno ENOMEM));; ret false
       else
         let allocate := Z.max (w64 (c_mallocated c * 2)) (PAGE_SIZE / sizeof_slab_metadata g) in
         let allocate := if metadata_max <? allocate then metadata_max else allocate in
         let! failed := c_sys (memory_protect_rw_metadata (c_info c) (w64 (allocate * sizeof_slab_metadata g))) in
         if failed : bool then ret false
         else upd_c (set_c_mallocated allocate);; ret true
     else ret true) in
  if negb ok then ret None
  else
    let! c := gets cs_c in
    let metadata := c_mcount c in
    let slab := get_slab c slab_size metadata in
    let! failed := (if non_zero_size then c_sys (memory_protect_rw slab slab_size) else ret false) in
    if failed : bool then ret None
    else
      upd_c (fun c => set_c_munguarded (w64 (c_munguarded c + 1)) (set_c_mcount (w64 (c_mcount c + 1)) c));;
      upd_c (fun c => if GUARD_SLABS_INTERVAL g <=? c_munguarded c
                      then set_c_munguarded 0 (set_c_mcount (w64 (c_mcount c + 1)) c) else c);;
      ret (Some metadata).

(** the common tail of the allocation paths: choose a slot and mark it used *)
Definition take_slot (g : config) (slots i : Z) : M cstate Z :=
  let! slot := get_free_slot g slots i in
  set_used_slot i slot;;
  ret slot.

(** allocate_small, h_malloc.c:598-729, inside the critical section.  [requested] is
    requested_size != 0; result None = NULL. *)
Definition allocate_small_class (g : config) (class : Z) (requested : bool) : M cstate (option Z) :=
  let size := slot_size g class in
  let slots := get_slots g class in
  let slab_size := get_slab_size slots size in
  let! c := gets cs_c in
  match c_partial c with
  | None =>
    match c_empty c with
    | Some metadata =>   (* lines 610-636 *)
        let! m := md metadata in
        upd_c (fun c => set_c_empty_total (w64 (c_empty_total c - slab_size)) (set_c_empty (sb_next m) c));;
        upd_md metadata (fun m => set_sb_prev None (set_sb_next None m));;
        upd_c (set_c_partial (if 1 <? slots then Some metadata else None));;
        let slab := get_slab c slab_size metadata in
        let! slot := take_slot g slots metadata in
        let p := slot_pointer size slab slot in
        (if requested then
           c_sys (write_after_free_check g p (size - canary_size g));;
           set_canary g metadata p size
         else ret tt);;
        stats_small_allocate g size;;
        ret (Some p)
    | None =>
      match c_fhead c with
      | Some metadata =>   (* lines 638-675 *)
          set_slab_canary_value g metadata;;
          let slab := get_slab c slab_size metadata in
          let! failed := (if requested then c_sys (memory_protect_rw slab slab_size) else ret false) in
          if failed : bool then ret None
          else
            let! m := md metadata in
            upd_c (fun c => set_c_fhead (sb_next m) c);;
            (match sb_next m with None => upd_c (set_c_ftail None) | Some _ => ret tt end);;
            upd_md metadata (fun m => set_sb_prev None (set_sb_next None m));;
            upd_c (set_c_partial (if 1 <? slots then Some metadata else None));;
            let! slot := take_slot g slots metadata in
            let p := slot_pointer size slab slot in
            (if requested then set_canary g metadata p size else ret tt);;
            stats_slab_allocate g slab_size;;
            stats_small_allocate g size;;
            ret (Some p)
      | None =>   (* lines 677-702 *)
          let! om := alloc_metadata g slab_size requested in
          match om with
          | None => ret None
          | Some metadata =>
              set_slab_canary_value g metadata;;
              upd_c (set_c_partial (if 1 <? slots then Some metadata else None));;
              let slab := get_slab c slab_size metadata in
              let! slot := take_slot g slots metadata in
              let p := slot_pointer size slab slot in
              (if requested then set_canary g metadata p size else ret tt);;
              stats_slab_allocate g slab_size;;
              stats_small_allocate g size;;
              ret (Some p)
          end
      end
    end
  | Some metadata =>   (* lines 705-728 *)
      let! slot := take_slot g slots metadata in
      let! m := md metadata in
      (if negb (has_free_slots slots m) then
         upd_c (set_c_partial (sb_next m));;
         match sb_next m with
         | Some n => upd_md n (set_sb_prev None)
         | None => ret tt
         end
       else ret tt);;
      let slab := get_slab c slab_size metadata in
      let p := slot_pointer size slab slot in
      (if requested then
         c_sys (write_after_free_check g p (size - canary_size g));;
         set_canary g metadata p size
       else ret tt);;
      stats_small_allocate g size;;
      ret (Some p)
  end.

(** enqueue_free_slab, h_malloc.c:750-768 *)
Definition enqueue_free_slab (g : config) (metadata : Z) : M cstate unit :=
  upd_md metadata (set_sb_next None);;
  let! index := c_rand (get_random_u16_uniform (FREE_SLABS_QUARANTINE_RANDOM_LENGTH g)) in
  let! c := gets cs_c in
  let! substitute := aget (c_fq c) index in
  upd_c (fun c => set_c_fq (lset (c_fq c) index (Some metadata)) c);;
  match substitute with
  | None => ret tt
  | Some sub =>
      (match c_ftail c with
       | Some t => upd_md t (set_sb_next (Some sub))
       | None => upd_c (set_c_fhead (Some sub))
       end);;
      upd_c (set_c_ftail (Some sub))
  end.

(** the slab quarantine, h_malloc.c:819-872: p goes in; result: the pointer that
    comes out, None if none does *)
Definition quarantine_pass (g : config) (size p : Z) : M cstate (option Z) :=
  let! out1 :=
    (if 0 <? SLAB_QUARANTINE_RANDOM_LENGTH g then
       (* get_random_u16_uniform takes a u16: the length is truncated *)
       let! random_index := c_rand (get_random_u16_uniform (slab_quarantine_random_length g size)) in
       let! c := gets cs_c in
       let! random_substitute := aget (c_qrandom c) random_index in
       upd_c (fun c => set_c_qrandom (lset (c_qrandom c) random_index p) c);;
       ret (if random_substitute =? 0 then None else Some random_substitute)
     else ret (Some p)) in
  match out1 with
  | None => ret None
  | Some p =>
    if 0 <? SLAB_QUARANTINE_QUEUE_LENGTH g then
      let! c := gets cs_c in
      let! queue_substitute := aget (c_qqueue c) (c_qqidx c) in
      upd_c (fun c => set_c_qqueue (lset (c_qqueue c) (c_qqidx c) p) c);;
      upd_c (fun c => set_c_qqidx (w64 (c_qqidx c + 1) mod slab_quarantine_queue_length g size) c);;
      ret (if queue_substitute =? 0 then None else Some queue_substitute)
    else ret (Some p)
  end.

(** slot lookup common to free / usable_size: h_malloc.c:791-793, 1736-1738 *)
Definition locate (g : config) (slab_size p : Z) : M cstate (Z * Z * Z) :=
  let! metadata := get_metadata p in
  let! c := gets cs_c in
  let slab := get_slab c slab_size metadata in
  let slot := libdivide_u32_do (w32 (p - slab)) (c_size_div c) in
  ret (metadata, slab, slot).

(** h_malloc.c:874-908: the slot is really released *)
Definition release_slot (g : config) (class : Z) (slots slab_size metadata slab slot : Z) : M cstate unit :=
  let! m := md metadata in
  (if negb (has_free_slots slots m) then
     let! c := gets cs_c in
     upd_md metadata (fun m => set_sb_prev None (set_sb_next (c_partial c) m));;
     (match c_partial c with
      | Some h => upd_md h (set_sb_prev (Some metadata))
      | None => ret tt
      end);;
     upd_c (set_c_partial (Some metadata))
   else ret tt);;
  clear_used_slot metadata slot;;
  let! m := md metadata in
  if is_free_slab m then
    (match sb_prev m with
     | Some pv => upd_md pv (set_sb_next (sb_next m))
     | None => upd_c (set_c_partial (sb_next m))
     end);;
    (match sb_next m with
     | Some nx => upd_md nx (set_sb_prev (sb_prev m))
     | None => ret tt
     end);;
    upd_md metadata (set_sb_prev None);;
    let! c := gets cs_c in
    let! purged :=
      (if max_empty_slabs_total g <? w64 (c_empty_total c + slab_size) then
         let! saved_errno := c_sys (gets errno) in
         let! failed := c_sys (memory_map_fixed slab slab_size) in
         if failed : bool then
           c_sys (memory_purge slab slab_size);;
           c_sys (modify (set_errno saved_errno));;
           ret false
         else
           stats_slab_deallocate g slab_size;;
           enqueue_free_slab g metadata;;
           ret true
       else ret false) in
    if purged : bool then ret tt
    else
      let! c := gets cs_c in
      upd_md metadata (set_sb_next (c_empty c));;
      upd_c (fun c => set_c_empty_total (w64 (c_empty_total c + slab_size)) (set_c_empty (Some metadata) c))
  else ret tt.

(** deallocate_small, h_malloc.c:771-911, after the arena and class have been found.
    [expected]: the expected size of free_sized. *)
Definition deallocate_small_class (g : config) (class p : Z) (expected : option Z) : M cstate unit :=
  let size0 := class_size g class in
  match expected with
  | Some e => if negb (size0 =? e) then fatal "sized deallocation mismatch (small)" else ret tt
  | None => ret tt
  end;;
  let is_zero_size := size0 =? 0 in
  let size := if is_zero_size then 16 else size0 in
  let slots := get_slots g class in
  let slab_size := get_slab_size slots size in
  stats_small_deallocate g size;;
  let! l := locate g slab_size p in
  let '(metadata, slab, slot) := l in
  (if negb (slot_pointer size slab slot =? p) then fatal "invalid unaligned free" else ret tt);;
  let! m := md metadata in
  let! used := is_used_slot m slot in
  (if negb used then fatal "double free" else ret tt);;
  (if negb is_zero_size then
     check_canary g metadata p size;;
     (if ZERO_ON_FREE g then c_sys (mem_set p 0 (size - canary_size g)) else ret tt)
   else ret tt);;
  if SLAB_QUARANTINE g then
    let! q := is_quarantine_slot m slot in
    (if q : bool then fatal "double free (quarantine)" else ret tt);;
    set_quarantine_slot metadata slot;;
    let! out := quarantine_pass g size p in
    match out with
    | None => ret tt
    | Some p' =>
        let! l := locate g slab_size p' in
        let '(metadata, slab, slot) := l in
        clear_quarantine_slot metadata slot;;
        release_slot g class slots slab_size metadata slab slot
    end
  else release_slot g class slots slab_size metadata slab slot.

(** memory_corruption_check_small, h_malloc.c:1722-1758 *)
Definition memory_corruption_check_class (g : config) (class p : Z) : M cstate unit :=
  let size0 := class_size g class in
  let is_zero_size := size0 =? 0 in
  let size := if is_zero_size then 16 else size0 in
  let slab_size := get_slab_size (get_slots g class) size in
  let! l := locate g slab_size p in
  let '(metadata, slab, slot) := l in
  (if negb (slot_pointer size slab slot =? p) then fatal "invalid unaligned malloc_usable_size" else ret tt);;
  let! m := md metadata in
  let! used := is_used_slot m slot in
  (if negb used then fatal "invalid malloc_usable_size" else ret tt);;
  (if negb is_zero_size then check_canary g metadata p size else ret tt);;
  if SLAB_QUARANTINE g then
    let! q := is_quarantine_slot m slot in
    if q : bool then fatal "invalid malloc_usable_size (quarantine)" else ret tt
  else ret tt.

(** malloc_object_size, critical section h_malloc.c:1806-1833; here slab_size and slot
    start use size_class itself (0 for the zero-size class).  Result: the offset of p
    in its slot. *)
Definition object_size_class (g : config) (class p : Z) : M cstate Z :=
  let size := class_size g class in
  let! metadata := get_metadata p in
  let slab_size := get_slab_size (get_slots g class) size in
  let! c := gets cs_c in
  let slab := get_slab c slab_size metadata in
  let slot := libdivide_u32_do (w32 (p - slab)) (c_size_div c) in
  let! m := md metadata in
  let! used := is_used_slot m slot in
  (if negb used then fatal "invalid malloc_object_size" else ret tt);;
  (if SLAB_QUARANTINE g then
     let! q := is_quarantine_slot m slot in
     if q : bool then fatal "invalid malloc_object_size (quarantine)" else ret tt
   else ret tt);;
  let start := slot_pointer size slab slot in
  ret (w64 (p - start)).

(** malloc_trim for one class, h_malloc.c:1886-1938.  The loop frees one empty slab per
    round; [n] bounds the rounds by the number of metadata records. *)
Fixpoint trim_loop (g : config) (slab_size : Z) (n : nat) (iterator : option Z) (trimmed : bool) : M cstate (option Z * bool) :=
  match iterator with
  | None => ret (None, trimmed)
  | Some i =>
    match n with
    | O => fail Hang
    | S n' =>
        let! c := gets cs_c in
        let slab := get_slab c slab_size i in
        let! failed := c_sys (memory_map_fixed slab slab_size) in
        if failed : bool then ret (Some i, trimmed)
        else
          stats_slab_deallocate g slab_size;;
          let! m := md i in
          upd_c (fun c => set_c_empty_total (w64 (c_empty_total c - slab_size)) c);;
          enqueue_free_slab g i;;
          trim_loop g slab_size n' (sb_next m) true
    end
  end.
(** purging of the quarantined slots of the extended classes, lines 1914-1936 *)
Fixpoint purge_list (l : list Z) (size : Z) : M cstate unit :=
  match l with
  | [] => ret tt
  | p :: t => (if p =? 0 then ret tt else c_sys (memory_purge p size);; ret tt);; purge_list t size
  end.
Definition malloc_trim_class (g : config) (class : Z) : M cstate bool :=
  let size := class_size g class in
  let slab_size := get_slab_size (get_slots g class) size in
  let! c := gets cs_c in
  let! r := trim_loop g slab_size (Z.to_nat (c_mallocated c)) (c_empty c) false in
  let '(iterator, trimmed) := r in
  upd_c (set_c_empty iterator);;
  (if SLAB_QUARANTINE g && EXTENDED_SIZE_CLASSES g && (min_extended_size_class <=? size) then
     let! c := gets cs_c in
     (if 0 <? SLAB_QUARANTINE_RANDOM_LENGTH g
      then purge_list (firstn (Z.to_nat (slab_quarantine_random_length g size)) (c_qrandom c)) size else ret tt);;
     (if 0 <? SLAB_QUARANTINE_QUEUE_LENGTH g
      then purge_list (firstn (Z.to_nat (slab_quarantine_queue_length g size)) (c_qqueue c)) size else ret tt)
   else ret tt);;
  ret trimmed.
