(** C18: malloc_object_size on valid pointers. *)
From Coq Require Import String ZArith List Bool Lia.
From Verif Require Import M_Base M_Config M_SizeClass M_OS M_Slab M_Region M_Api M_Hist S_SizeClass S_Heap
  P_Api3 P_Api4 P_Api5 P_Api6 P_Api7 P_Demo P_Refute.
Import ListNotations.
Open Scope Z_scope.

(** a pointer to any byte of a live small block: exactly the rest of the block *)
Theorem C18_small_exact : forall (g : config) (W : store_rule) (o : os) (t : trace) (s : state) (p q : Z) (c : op) (n : Z),
  usable_config g = true -> history g W o t s ->
  In (q, c) (live t) -> small g s q c n -> q <= p < q + n -> exists s', run (h_malloc_object_size g p) s = Ok (q + n - p, s').
Proof. exact C18_small_l. Qed.
Print Assumptions C18_small_exact.

(** outside the area of small blocks: the size of a live large block, SIZE_MAX for any other pointer *)
Theorem C18_large_or_foreign : forall (g : config) (W : store_rule) (o : os) (t : trace) (s : state) (p : Z),
  usable_config g = true -> history g W o t s ->
  word p -> p <> 0 -> ~ st_start s <= p < st_end s ->
  exists r s', run (h_malloc_object_size g p) s = Ok (r, s') /\
    (~ is_live t p -> r = 2 ^ 64 - 1) /\ (forall n, is_live t p -> usable_size g s p n -> r = n).
Proof. exact C18_outside_l. Qed.
Print Assumptions C18_large_or_foreign.

(** malloc_object_size_fast always answers and never less than the rest of the block *)
Theorem C18_fast_upper_bound : forall (g : config) (W : store_rule) (o : os) (t : trace) (s : state) (p : Z),
  usable_config g = true -> history g W o t s -> word p ->
  exists r, run (h_malloc_object_size_fast g p) s = Ok (r, s) /\ (p = 0 -> r = 0) /\
    (forall q c n, In (q, c) (live t) -> extent g s q c n -> q <= p < q + n -> q + n - p <= r).
Proof. exact C18_fast_l. Qed.
Print Assumptions C18_fast_upper_bound.

(** NULL *)
Theorem C18_null : forall (g : config) (s : state), run (h_malloc_object_size g 0) s = Ok (0, s).
Proof. exact C18_null_l. Qed.
Print Assumptions C18_null.

(** for zero-size blocks the property is false of the code: it reads its bitmap out of bounds *)
Theorem C18_zero_size_refuted : exists (g : config) (o : os) (t : trace) (s : state) (p tid : Z) (m : string),
  usable_config g = true /\ history g (own_store g) o t s /\ In (p, OMalloc 0) (live t) /\ run (op_run g tid (OObjectSize p)) s = Fail (UB m).
Proof. exact C18_bad. Qed.
Print Assumptions C18_zero_size_refuted.

Example C18_case :
  history g0 (own_store g0) o0 t1 s1 /\ In (25784834800, OMalloc 100) (live t1) /\ small g0 s1 25784834800 (OMalloc 100) 104 /\
  In (64424538112, OMalloc 200000) (live t1) /\ usable_size g0 s1 64424538112 229376 /\ ~ st_start s1 <= 64424538112 < st_end s1 /\
  (exists s', calls g0 (own_store g0) t1 s1 0 (OObjectSize 25784834810) (ASize 94) s') /\
  (exists s', calls g0 (own_store g0) t1 s1 0 (OObjectSize 64424538112) (ASize 229376) s').
Proof.
  pose proof (demo1_looks (LOther (fun s => st_start s =? 25769803776)) ltac:(in_list)) as E1. pose proof (demo1_looks (LOther (fun s => st_end s =? 25847398400)) ltac:(in_list)) as E2. cbn [looks] in E1, E2.
  split; [exact demo1_history|]. split; [cbn; tauto|]. split.
  - split; [look1 (LUsable 25784834800 104)|]. split; [vm_compute; discriminate|]. unfold overaligned. cbn. lia.
  - split; [cbn; tauto|]. split; [look1 (LUsable 64424538112 229376)|]. split; [lia|].
    split; [look1 (LCall 0 (OObjectSize 25784834810) (ASize 94))|look1 (LCall 0 (OObjectSize 64424538112) (ASize 229376))].
Qed.
