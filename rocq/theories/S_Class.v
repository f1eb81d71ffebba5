(** Specification vocabulary for what happens inside the area of one arena and size class:
    slabs, quarantines and counts.  Only the data structure that the code keeps, no
    function of the model. *)
From Coq Require Import String ZArith List Bool.
From Verif Require Import M_Base M_Config M_SizeClass M_OS M_Random M_Slab M_Region M_Api M_Hist S_SizeClass S_Slab S_Heap.
Import ListNotations.
Open Scope Z_scope.

(** arena [a] and size class [k] exist; class 0 serves requests of size 0 *)
Definition exists_class (g : config) (a k : Z) : Prop := 0 <= a < N_ARENA g /\ 0 <= k < N_SIZE_CLASSES g.
(** bytes of one slab: its slots, rounded up to whole pages *)
Definition slab_bytes (g : config) (k : Z) : Z := page_up (get_slots g k * slot_size g k).
(** [x] lies in the area of arena [a] and class [k], in slab number [i] *)
Definition in_slab_no (g : config) (s : state) (a k i x : Z) : Prop :=
  c_start (st_cls s a k) <= x < c_start (st_cls s a k) + CLASS_REGION_SIZE g /\
  c_start (st_cls s a k) + i * slab_bytes g k <= x < c_start (st_cls s a k) + (i + 1) * slab_bytes g k.
(** slab [i] has a slot that is allocated or waits in the quarantine *)
Definition holds (c : size_class) (i : Z) : Prop := exists j, 0 <= j < 256 /\ occupied (sb_bitmap (c_slabs c i)) j = true.
(** the list that starts at [h] and is linked by [next] *)
Inductive follows (next : Z -> option Z) : option Z -> list Z -> Prop :=
| follows_end : follows next None []
| follows_next i l : follows next (next i) l -> follows next (Some i) (i :: l).
(** the slabs that are cached as empty *)
Definition empty_slabs (c : size_class) (l : list Z) : Prop := follows (fun i => sb_next (c_slabs c i)) (c_empty c) l.
Definition cached (c : size_class) (i : Z) : Prop := exists l, empty_slabs c l /\ In i l.
(** the slabs whose pages were given back, in the order in which they will be used again;
    those in the random array wait before they join this list *)
Definition purged_slabs (c : size_class) (l : list Z) : Prop := follows (fun i => sb_next (c_slabs c i)) (c_fhead c) l.
Definition waiting (c : size_class) (i : Z) : Prop := In (Some i) (c_fq c).

(** between [s] and [s'] the kernel answered a memory call with ENOMEM *)
Definition kernel_refused (s s' : state) : Prop :=
  exists n, (sysn (st_os s) <= n < sysn (st_os s'))%nat /\ sa_errno (sysq (st_os s) n) = ENOMEM.

(** ** frees *)
(** the block given up by an event: a free, or a realloc that moved the block *)
Definition freed_by (e : event) : option Z :=
  match e_op e, e_ans e with
  | OFree p, AUnit | OFreeSized p _, AUnit => if p =? 0 then None else Some p
  | ORealloc p _, APtr q => if (p =? 0) || (q =? p) then None else Some p
  | _, _ => None
  end.
(** the pointer handed out by an event, other than a block that stayed where it was *)
Definition handed_out (e : event) : option Z :=
  match e_op e, e_ans e with
  | ORealloc p _, APtr q => if q =? p then None else Some q
  | c, APtr q => if allocates c then Some q else None
  | _, _ => None
  end.
(** [p] and [q] are small blocks of the same arena and size class.  Every pair of arena and
    class has its own part of the area for small blocks, all of the same length. *)
Definition in_small_area (s : state) (p : Z) : Prop := st_start s <= p < st_end s.
Definition same_class (g : config) (s : state) (p q : Z) : bool :=
  ((st_start s <=? q) && (q <? st_end s)) && ((q - st_start s) / (2 * CLASS_REGION_SIZE g) =? (p - st_start s) / (2 * CLASS_REGION_SIZE g)).
(** how many of the events free a block of the arena and class of [p] *)
Definition frees_like (g : config) (s : state) (p : Z) (l : list event) : nat :=
  length (filter (fun e => match freed_by e with Some q => same_class g s p q | None => false end) l).
(** the length of the quarantine queue for slots of [n] bytes: it doubles each time the
    size halves *)
Definition queue_length (g : config) (n : Z) : Z :=
  SLAB_QUARANTINE_QUEUE_LENGTH g * 2 ^ (Z.log2 (max_slab_size_class g) - Z.log2 n).
(** the slot that holds a block of usable size [n]: the block and its canary; blocks of
    usable size 0 have slots of 16 bytes *)
Definition slot_bytes (g : config) (n : Z) : Z := if n =? 0 then 16 else n + canary_size g.
(** the documented limit for the bytes of cached empty slabs of one arena and class *)
Definition cache_limit (g : config) : Z := if EXTENDED_SIZE_CLASSES g then 131072 else 65536.

(** ** canaries *)
(** the 64-bit little-endian number at [x] *)
Definition number_at (s : state) (x : Z) : Z :=
  content s x + 2 ^ 8 * content s (x + 1) + 2 ^ 16 * content s (x + 2) + 2 ^ 24 * content s (x + 3) +
  2 ^ 32 * content s (x + 4) + 2 ^ 40 * content s (x + 5) + 2 ^ 48 * content s (x + 6) + 2 ^ 56 * content s (x + 7).
(** the small block at [p] has usable size [n], and the canary of its slab is [v] *)
Definition canary_of (g : config) (s : state) (p n v : Z) : Prop :=
  exists a k i, exists_class g a k /\ k <> 0 /\ in_slab_no g s a k i p /\ n = slot_size g k - canary_size g /\ v = sb_canary (c_slabs (st_cls s a k) i).
(** memory holds bytes *)
Definition bytes_at (s : state) (lo hi : Z) : Prop := forall x, lo <= x < hi -> 0 <= content s x < 256.
