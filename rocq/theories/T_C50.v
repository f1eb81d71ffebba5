(** C50: address space is accounted for. *)
From Coq Require Import ZArith List Bool.
From Verif Require Import M_Base M_Config M_SizeClass M_OS M_Slab M_Region M_Api M_Hist S_Heap S_Class S_Quar S_Guard S_Leak P_Demo P_Demo6 P_Demo7 P_Leak.
Import ListNotations.
Open Scope Z_scope.

(** Before the first call that needs memory, nothing is mapped beyond what the program started with. *)
Theorem C50_nothing_before_the_first_request : forall (g : config) (W : store_rule) (o : os) (t : trace) (s : state) (x : Z),
  usable_config g = true -> history g W o t s -> is_init s = false -> S_Guard.mapped s x -> S_Guard.mapped (boot g o) x.
Proof. exact C50_idle_l. Qed.
Print Assumptions C50_nothing_before_the_first_request.

(** Once the allocator runs there is one fixed range for its own data, of bounded length.  In every later state, an
    address that is mapped was mapped before the program started, lies in that range, lies in the area of the size
    classes, belongs to a large block the program still holds (or to the guards around that block, which are within the limit for its size
    unless realloc resized it in place), or lies in one of
    at most as many inaccessible ranges as the quarantine for large blocks has places.  So an allocator that runs for
    ever does not lose address space.  The kernel must not have answered "out of memory": see the refutation below. *)
Theorem C50_address_space_accounted_partial : forall (g : config) (W : store_rule) (o : os) (t : trace) (s : state),
  usable_config g = true -> history g W o t s -> is_init s = true ->
  exists lo hi, lo <= hi <= lo + page_up (sizeof_allocator_state g) + 2 * REAL_CLASS_REGION_SIZE g /\
    forall t' s', continues g W t s t' s' -> never_refused s' ->
    exists held,
      Z.of_nat (length held) <= REGION_QUARANTINE_RANDOM_LENGTH g + REGION_QUARANTINE_QUEUE_LENGTH g /\
      (forall x, in_ranges held x -> inaccessible s' x) /\
      forall x, S_Guard.mapped s' x ->
        S_Guard.mapped (boot g o) x \/ lo <= x < hi \/ in_small_area s x \/ of_large_block g t' s' x \/ in_ranges held x.
Proof. exact C50_core. Qed.
Print Assumptions C50_address_space_accounted_partial.

(** Without the assumption on the kernel: a block too large for the quarantine is freed, the kernel refuses to unmap
    it, free returns, and the memory stays readable and writable although nobody holds it. *)
Theorem C50_kernel_refuses_refuted : exists (g : config) (o : os) (t : trace) (s : state) (p : Z) (b : op) (n tid : Z) (s1 : state),
  usable_config g = true /\ history g (own_store g) o t s /\
  In (p, b) (live t) /\ ~ in_small_area s p /\ usable_size g s p n /\ REGION_QUARANTINE_SKIP_THRESHOLD g <= n /\
  calls g (own_store g) t s tid (OFree p) AUnit s1 /\ accessible s1 p.
Proof. exact C50_bad. Qed.
Print Assumptions C50_kernel_refuses_refuted.

(** an allocator in use, a history that goes on with frees of large blocks, and an address of a freed large block that
    is mapped afterwards and inaccessible *)
Example C50_case :
  usable_config g0 = true /\ history g0 (own_store g0) o0 t8 s8 /\ is_init s8 = true /\ continues g0 (own_store g0) t8 s8 t10 s10 /\ never_refused s10 /\
  inaccessible s10 42949701632 /\ In (42949701632, OMalloc 200000) (live t8) /\ ~ In 42949701632 (map fst (live t10)).
Proof.
  split; [reflexivity|]. split; [exact demo8_history|]. split; [exact s8_init|]. split; [exact t8_t10|].
  split; [exact (never_refusedb_ok _ (demo10_looks (LOther never_refusedb) ltac:(in_list)))|]. split; [exact s10_held|]. split; [cbn; tauto|]. cbn. intuition congruence.
Qed.
Example C50_idle_case : usable_config g0 = true /\ history g0 (own_store g0) o0 [] (boot g0 o0) /\ is_init (boot g0 o0) = false.
Proof. split; [reflexivity|]. split; [constructor|reflexivity]. Qed.
