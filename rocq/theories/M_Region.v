(** The region (large allocation) table and quarantine: h_malloc.c:913-955, 973-1119,
    1340-1372.  Critical sections of the region lock are single atomic actions,
    system calls outside the lock are separate actions. *)
From Coq Require Import String ZArith List Bool.
From Verif Require Import M_Base M_Config M_SizeClass M_OS M_Chacha M_Random.
Import ListNotations.
Open Scope Z_scope.

(** struct region_metadata, h_malloc.c:913-917 *)
Record region : Type := mkRegion { rg_p : Z; rg_size : Z; rg_guard : Z }.
Definition region_zero : region := mkRegion 0 0 0.

(** struct region_allocator, h_malloc.c:927-943 and ro.regions (two tables).
    [ra_leftover] is not in the C code: it records that the kernel once refused to
    discard a retired table (h_malloc.c:1050 ignores that failure). *)
Record ralloc : Type := mkRa {
  ra_tab : bool -> Z -> region;    (* contents of ro.regions[0] (false) and [1] (true) *)
  ra_addr : bool -> Z;             (* their addresses *)
  ra_cur : bool;                   (* which one ra->regions is *)
  ra_total : Z;
  ra_free : Z;
  ra_allocated : Z;
  ra_qrandom : list (Z * Z);       (* struct quarantine_info: p, size *)
  ra_qqueue : list (Z * Z);
  ra_qqidx : Z;
  ra_rng : random_state;
  ra_leftover : bool
}.
Definition ra_cells (r : ralloc) : Z -> region := ra_tab r (ra_cur r).
Definition set_ra_tab (b : bool) (t : Z -> region) (r : ralloc) : ralloc :=
  mkRa (fun x => if Bool.eqb x b then t else ra_tab r x) (ra_addr r) (ra_cur r) (ra_total r) (ra_free r) (ra_allocated r) (ra_qrandom r) (ra_qqueue r) (ra_qqidx r) (ra_rng r) (ra_leftover r).
Definition set_ra_cells (t : Z -> region) (r : ralloc) : ralloc := set_ra_tab (ra_cur r) t r.
Definition set_ra_cur (x : bool) (r : ralloc) : ralloc :=
  mkRa (ra_tab r) (ra_addr r) x (ra_total r) (ra_free r) (ra_allocated r) (ra_qrandom r) (ra_qqueue r) (ra_qqidx r) (ra_rng r) (ra_leftover r).
Definition set_ra_total (x : Z) (r : ralloc) : ralloc :=
  mkRa (ra_tab r) (ra_addr r) (ra_cur r) x (ra_free r) (ra_allocated r) (ra_qrandom r) (ra_qqueue r) (ra_qqidx r) (ra_rng r) (ra_leftover r).
Definition set_ra_free (x : Z) (r : ralloc) : ralloc :=
  mkRa (ra_tab r) (ra_addr r) (ra_cur r) (ra_total r) x (ra_allocated r) (ra_qrandom r) (ra_qqueue r) (ra_qqidx r) (ra_rng r) (ra_leftover r).
Definition set_ra_allocated (x : Z) (r : ralloc) : ralloc :=
  mkRa (ra_tab r) (ra_addr r) (ra_cur r) (ra_total r) (ra_free r) x (ra_qrandom r) (ra_qqueue r) (ra_qqidx r) (ra_rng r) (ra_leftover r).
Definition set_ra_qrandom (x : list (Z * Z)) (r : ralloc) : ralloc :=
  mkRa (ra_tab r) (ra_addr r) (ra_cur r) (ra_total r) (ra_free r) (ra_allocated r) x (ra_qqueue r) (ra_qqidx r) (ra_rng r) (ra_leftover r).
Definition set_ra_qqueue (x : list (Z * Z)) (r : ralloc) : ralloc :=
  mkRa (ra_tab r) (ra_addr r) (ra_cur r) (ra_total r) (ra_free r) (ra_allocated r) (ra_qrandom r) x (ra_qqidx r) (ra_rng r) (ra_leftover r).
Definition set_ra_qqidx (x : Z) (r : ralloc) : ralloc :=
  mkRa (ra_tab r) (ra_addr r) (ra_cur r) (ra_total r) (ra_free r) (ra_allocated r) (ra_qrandom r) (ra_qqueue r) x (ra_rng r) (ra_leftover r).
Definition set_ra_rng (x : random_state) (r : ralloc) : ralloc :=
  mkRa (ra_tab r) (ra_addr r) (ra_cur r) (ra_total r) (ra_free r) (ra_allocated r) (ra_qrandom r) (ra_qqueue r) (ra_qqidx r) x (ra_leftover r).
Definition set_ra_leftover (x : bool) (r : ralloc) : ralloc :=
  mkRa (ra_tab r) (ra_addr r) (ra_cur r) (ra_total r) (ra_free r) (ra_allocated r) (ra_qrandom r) (ra_qqueue r) (ra_qqidx r) (ra_rng r) x.

Record rastate : Type := mkRas { rs_os : os; rs_ra : ralloc }.
Definition set_rs_os (o : os) (s : rastate) : rastate := mkRas o (rs_ra s).
Definition set_rs_ra (r : ralloc) (s : rastate) : rastate := mkRas (rs_os s) r.
Definition upd_ra (f : ralloc -> ralloc) : M rastate unit := modify (fun s => set_rs_ra (f (rs_ra s)) s).
Definition ra_sys {A} (m : M os A) : M rastate A := zoom rs_os set_rs_os m.
Definition ra_rand {A} (m : M rstate A) : M rastate A :=
  zoom (fun s => mkRst (rs_os s) (ra_rng (rs_ra s)))
       (fun r s => mkRas (r_os r) (set_ra_rng (r_rng r) (rs_ra s))) m.

(** h_malloc.c:945-955 *)
Definition stats_large_allocate (g : config) (size : Z) : M rastate unit :=
  if STATS g then upd_ra (fun r => set_ra_allocated (w64 (ra_allocated r + size)) r) else ret tt.
Definition stats_large_deallocate (g : config) (size : Z) : M rastate unit :=
  if STATS g then upd_ra (fun r => set_ra_allocated (w64 (ra_allocated r - size)) r) else ret tt.

(** ** The hash table (linear probing downwards) *)
(** hash_page(p) & mask *)
Definition home (p mask : Z) : Z := Z.land (hash_page p) mask.
(** (index - 1) & mask *)
Definition prev_index (index mask : Z) : Z := Z.land (w64 (index - 1)) mask.

(** "while (t[index].p != NULL) index = (index - 1) & mask": None = would not end *)
Fixpoint probe_empty (n : nat) (t : Z -> region) (mask index : Z) : option Z :=
  if rg_p (t index) =? 0 then Some index
  else match n with
       | O => None
       | S n' => probe_empty n' t mask (prev_index index mask)
       end.
(** "while (r != p && r != NULL)", h_malloc.c:1087-1090 *)
Fixpoint probe_key (n : nat) (t : Z -> region) (mask p index : Z) : option Z :=
  if (rg_p (t index) =? p) || (rg_p (t index) =? 0) then Some index
  else match n with
       | O => None
       | S n' => probe_key n' t mask p (prev_index index mask)
       end.

(** rehashing loop of regions_grow, h_malloc.c:1039-1048 *)
Fixpoint rehash (idx : list Z) (old new : Z -> region) (newtotal : Z) : option (Z -> region) :=
  match idx with
  | [] => Some new
  | i :: rest =>
      if rg_p (old i) =? 0 then rehash rest old new newtotal
      else
        match probe_empty (Z.to_nat newtotal) new (newtotal - 1) (home (rg_p (old i)) (newtotal - 1)) with
        | None => None
        | Some index => rehash rest old (fupd new index (old i)) newtotal
        end
  end.

(** h_malloc.c:1017-1056: true = failure.  After a successful MAP_FIXED the retired
    table reads as zero. *)
Definition regions_grow (g : config) : M rastate bool :=
  let! ra := gets rs_ra in
  if SIZE_MAX / sizeof_region_metadata / 2 <? ra_total ra then ret true
  else
    let newtotal := ra_total ra * 2 in
    let newsize := w64 (newtotal * sizeof_region_metadata) in
    if MAX_REGION_TABLE_SIZE g <? newtotal then ret true
    else
      let other := negb (ra_cur ra) in
      let! failed := ra_sys (memory_protect_rw_metadata (ra_addr ra other) newsize) in
      if failed : bool then ret true
      else
        match rehash (zrange 0 (ra_total ra)) (ra_cells ra) (ra_tab ra other) newtotal with
        | None => fail Hang
        | Some t =>
            upd_ra (set_ra_tab other t);;
            let! failed := ra_sys (memory_map_fixed (ra_addr ra (ra_cur ra)) (w64 (ra_total ra * sizeof_region_metadata))) in
            (if failed : bool then upd_ra (set_ra_leftover true)
             else upd_ra (fun r => set_ra_tab (ra_cur ra) (fun i => if i <? ra_total ra then region_zero else ra_tab r (ra_cur ra) i) r));;
            upd_ra (fun r => set_ra_cur other (set_ra_total newtotal (set_ra_free (w64 (ra_free r + ra_total r)) r)));;
            ret false
        end.

(** h_malloc.c:1058-1079: true = failure *)
Definition regions_insert (g : config) (p size guard_size : Z) : M rastate bool :=
  let! ra := gets rs_ra in
  let! failed := (if w64 (ra_free ra * 4) <? ra_total ra then regions_grow g else ret false) in
  if failed : bool then ret true
  else
    let! ra := gets rs_ra in
    let mask := w64 (ra_total ra - 1) in
    match probe_empty (Z.to_nat (ra_total ra)) (ra_cells ra) mask (home p mask) with
    | None => fail Hang
    | Some index =>
        upd_ra (fun r => set_ra_free (w64 (ra_free r - 1)) (set_ra_cells (fupd (ra_cells r) index (mkRegion p size guard_size)) r));;
        ret false
    end.

(** h_malloc.c:1081-1092: the index of the entry *)
Definition regions_find (p : Z) : M rastate (option Z) :=
  let! ra := gets rs_ra in
  let mask := w64 (ra_total ra - 1) in
  match probe_key (Z.to_nat (ra_total ra)) (ra_cells ra) mask p (home p mask) with
  | None => fail Hang
  | Some index =>
      let r := rg_p (ra_cells ra index) in
      ret (if (r =? p) && negb (r =? 0) then Some index else None)
  end.

(** deletion by backward shift, h_malloc.c:1103-1118: j is the hole, i the scan
    position.  Clearing a cell sets p and size only. *)
Definition clear_cell (r : region) : region := mkRegion 0 0 (rg_guard r).
Fixpoint delete_loop (n : nat) (t : Z -> region) (mask i j : Z) : option (Z -> region) :=
  match n with
  | O => None
  | S n' =>
      let i := prev_index i mask in
      if rg_p (t i) =? 0 then Some t
      else
        let r := home (rg_p (t i)) mask in
        if ((i <=? r) && (r <? j)) || ((r <? j) && (j <? i)) || ((j <? i) && (i <=? r))
        then delete_loop n' t mask i j
        else
          let t := fupd t j (t i) in
          let t := fupd t i (clear_cell (t i)) in
          delete_loop n' t mask i i
  end.
(** h_malloc.c:1094-1119 *)
Definition regions_delete (index : Z) : M rastate unit :=
  let! ra := gets rs_ra in
  let mask := w64 (ra_total ra - 1) in
  let t := ra_cells ra in
  let t := fupd t index (clear_cell (t index)) in
  match delete_loop (Z.to_nat (ra_total ra)) t mask index index with
  | None => fail Hang
  | Some t => upd_ra (fun r => set_ra_free (w64 (ra_free r + 1)) (set_ra_cells t r))
  end.
(** region->size = size, h_malloc.c:1560 *)
Definition regions_set_size (index size : Z) : M rastate unit :=
  upd_ra (fun r => set_ra_cells (fupd (ra_cells r) index (mkRegion (rg_p (ra_cells r index)) size (rg_guard (ra_cells r index)))) r).

(** lift a program to a bigger state *)
Fixpoint pzoom {S T A} (gt : S -> T) (st : T -> S -> S) (p : prog T A) : prog S A :=
  match p with
  | Ret a => Ret a
  | Act m k => Act (zoom gt st m) (fun b => pzoom gt st (k b))
  end.
Definition ra_psys {A} (p : prog os A) : prog rastate A := pzoom rs_os set_rs_os p.

(** the critical section of regions_quarantine_deallocate_pages, h_malloc.c:990-1010:
    result: the range to unmap (address 0: none) *)
Definition region_quarantine_pass (g : config) (target : Z * Z) : M rastate (Z * Z) :=
  let! out1 :=
    (if 0 <? REGION_QUARANTINE_RANDOM_LENGTH g then
       let! index := ra_rand (get_random_u64_uniform (REGION_QUARANTINE_RANDOM_LENGTH g)) in
       let! ra := gets rs_ra in
       let! random_substitute := aget (ra_qrandom ra) index in
       upd_ra (fun r => set_ra_qrandom (lset (ra_qrandom r) index target) r);;
       ret (if fst random_substitute =? 0 then None else Some random_substitute)
     else ret (Some target)) in
  match out1 with
  | None => ret (0, 0)
  | Some target =>
    if 0 <? REGION_QUARANTINE_QUEUE_LENGTH g then
      let! ra := gets rs_ra in
      let! queue_substitute := aget (ra_qqueue ra) (ra_qqidx ra) in
      upd_ra (fun r => set_ra_qqueue (lset (ra_qqueue r) (ra_qqidx r) target) r);;
      upd_ra (fun r => set_ra_qqidx (w64 (ra_qqidx r + 1) mod REGION_QUARANTINE_QUEUE_LENGTH g) r);;
      ret queue_substitute
    else ret target
  end.

(** h_malloc.c:973-1015 *)
Definition regions_quarantine_deallocate_pages (g : config) (p size guard_size : Z) : prog rastate unit :=
  if negb (REGION_QUARANTINE g) || (REGION_QUARANTINE_SKIP_THRESHOLD g <=? size)
  then ra_psys (deallocate_pages p size guard_size)
  else
    do! failed := act (ra_sys (memory_map_fixed p size)) in
    (if failed : bool then act (ra_sys (memory_purge p size)) ;;; Ret tt else Ret tt) ;;;
    do! target := act (region_quarantine_pass g (w64 (p - guard_size), w64 (size + guard_size * 2))) in
    if fst target =? 0 then Ret tt
    else act (ra_sys (memory_unmap (fst target) (snd target))) ;;; Ret tt.

(** h_malloc.c:1340-1342, in the critical sections 1353-1355, 1426-1428 *)
Definition get_guard_size (g : config) (size : Z) : M rastate Z :=
  let! x := ra_rand (get_random_u64_uniform (size / PAGE_SIZE / GUARD_SIZE_DIVISOR g)) in
  ret (w64 ((x + 1) * PAGE_SIZE)).

(** critical section h_malloc.c:1362-1369: true = failure *)
Definition insert_section (g : config) (stats : bool) (p size guard_size : Z) : M rastate bool :=
  let! failed := regions_insert g p size guard_size in
  if failed : bool then ret true
  else (if stats then stats_large_allocate g size else ret tt);; ret false.

(** h_malloc.c:1344-1372 *)
Definition allocate_large (g : config) (size : Z) : prog rastate (option Z) :=
  let size := get_large_size_class g size in
  if size =? 0 then act (ra_sys (modify (set_errno ENOMEM))) ;;; Ret None
  else
    do! guard_size := act (get_guard_size g size) in
    do! p := ra_psys (allocate_pages size guard_size true) in
    match p with
    | None => Ret None
    | Some p =>
        do! failed := act (insert_section g true p size guard_size) in
        if failed : bool then
          ra_psys (deallocate_pages p size guard_size) ;;; Ret None
        else Ret (Some p)
    end.

(** the large branch of allocate_aligned, h_malloc.c:1417-1444: errno value or pointer *)
Definition allocate_large_aligned (g : config) (alignment size : Z) : prog rastate (Z + Z) :=
  let size := get_large_size_class g size in
  if size =? 0 then Ret (inl ENOMEM)
  else
    do! guard_size := act (get_guard_size g size) in
    do! p := ra_psys (allocate_pages_aligned size alignment guard_size) in
    match p with
    | None => Ret (inl ENOMEM)
    | Some p =>
        do! failed := act (insert_section g false p size guard_size) in
        if failed : bool then
          ra_psys (deallocate_pages p size guard_size) ;;; Ret (inl ENOMEM)
        else Ret (inr p)
    end.

(** the critical section of deallocate_large, h_malloc.c:1384-1396: (size, guard size) *)
Definition remove_section (g : config) (p : Z) (expected : option Z) : M rastate (Z * Z) :=
  let! oi := regions_find p in
  match oi with
  | None => fatal "invalid free"
  | Some i =>
      let! ra := gets rs_ra in
      let region := ra_cells ra i in
      let size := rg_size region in
      (match expected with
       | Some e => if negb (size =? get_large_size_class g e) then fatal "sized deallocation mismatch (large)" else ret tt
       | None => ret tt
       end);;
      let guard_size := rg_guard region in
      regions_delete i;;
      stats_large_deallocate g size;;
      ret (size, guard_size)
  end.
(** h_malloc.c:1378-1399 after enforce_init *)
Definition deallocate_large (g : config) (p : Z) (expected : option Z) : prog rastate unit :=
  do! sg := act (remove_section g p expected) in
  regions_quarantine_deallocate_pages g p (fst sg) (snd sg).

(** the region allocator after init_slow_path, h_malloc.c:1231-1244 (INITIAL_REGION_TABLE_SIZE
    is 128, h_malloc.c:913-918); the structure is zero before *)
Definition ra_init (g : config) (addr_a addr_b : Z) (rng : random_state) : ralloc :=
  mkRa (fun _ _ => region_zero) (fun b => if b : bool then addr_b else addr_a) false 128 128 0
       (repeat (0, 0) (Z.to_nat (REGION_QUARANTINE_RANDOM_LENGTH g)))
       (repeat (0, 0) (Z.to_nat (REGION_QUARANTINE_QUEUE_LENGTH g))) 0 rng false.
