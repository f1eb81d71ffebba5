(** Arm memory tagging of slab slots (HAS_ARM_MTE): util.h u4_arr_*, memtag.h,
    tag_and_clear_slab_slot and the tagging on free.  The hardware's choice of a random
    tag and the tags of memory are explicit; the data bytes cleared together with the tags
    are not modelled here. *)
From Coq Require Import String ZArith List Bool.
From Verif Require Import M_Base.
Import ListNotations.
Open Scope Z_scope.

(** u4_arr_set, util.h:63-68, and u4_arr_get, util.h:70-74: an array of bytes used as an
    array of 4-bit values *)
Definition u4_arr_set (arr : Z -> Z) (idx val : Z) : Z -> Z :=
  let off := Z.shiftr idx 1 in
  let shift := Z.shiftl (Z.land idx 1) 2 in
  let mask := (Z.shiftr 0xf0 shift) mod 256 in
  fupd arr off (Z.lor (Z.land (arr off) mask) (Z.shiftl val shift) mod 256).
Definition u4_arr_get (arr : Z -> Z) (idx : Z) : Z :=
  let off := Z.shiftr idx 1 in
  let shift := Z.shiftl (Z.land idx 1) 2 in
  Z.land (Z.shiftr (arr off) shift) 0xf.

(** memtag.h:17-24, 35-48 *)
Definition RESERVED_TAG : Z := 0.
Definition untag_pointer (p : Z) : Z := Z.land p (Z.shiftr (2 ^ 64 - 1) 8).
Definition set_pointer_tag (p tag : Z) : Z := Z.lor (Z.shiftl tag 56 mod 2 ^ 64) (untag_pointer p).
Definition get_pointer_tag (p : Z) : Z := Z.land (Z.shiftr p 56) 0xf.

(** one slab: [tg_arr] is metadata->arm_mte_tags (h_malloc.c:112-123, 129 bytes), [tg_mem]
    the hardware tag of the memory of each slot *)
Record tags : Type := mkTags { tg_arr : Z -> Z; tg_mem : Z -> Z }.
Definition tags_zero : tags := mkTags (fun _ => 0) (fun _ => 0).
(** an array access of slot index [idx] *)
Definition tag_index_ok (idx : Z) : bool := (0 <=? idx) && (Z.shiftr idx 1 <? 129).

(** tag_and_clear_slab_slot, h_malloc.c:567-595: [irg] is what the hardware answers for an
    exclusion mask (IRG instruction); the result is the tag of the returned pointer *)
Definition tag_exclusion_mask (t : tags) (slot : Z) : Z :=
  let bit i := Z.shiftl 1 (u4_arr_get (tg_arr t) i) in
  Z.lor (Z.lor (Z.lor (Z.shiftl 1 RESERVED_TAG) (bit slot)) (bit (slot + 1))) (bit (slot + 2)).
Definition tag_and_clear_slab_slot (irg : Z -> Z) (slot p : Z) (t : tags) : res (Z * tags) :=
  if tag_index_ok slot && tag_index_ok (slot + 2) then
    let tagged_ptr := set_pointer_tag p (irg (tag_exclusion_mask t slot)) in
    Ok (tagged_ptr, mkTags (u4_arr_set (tg_arr t) (slot + 1) (get_pointer_tag tagged_ptr)) (fupd (tg_mem t) slot (get_pointer_tag tagged_ptr)))
  else Fail (UB "arm_mte_tags index out of bounds").
(** deallocate_small, h_malloc.c:807-812: the slot's memory gets the reserved tag, the
    array is not updated *)
Definition tag_free_slot (slot p : Z) (t : tags) : tags :=
  mkTags (tg_arr t) (fupd (tg_mem t) slot (get_pointer_tag (set_pointer_tag p RESERVED_TAG))).
(** a slab given back to the kernel (h_malloc.c:889-905, 1904-1927): fresh pages have tag 0;
    the array stays *)
Definition tag_purge_slab (t : tags) : tags := mkTags (tg_arr t) (fun _ => 0).
