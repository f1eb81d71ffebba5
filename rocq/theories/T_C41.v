(** C41: the cache of empty slabs is bounded. *)
From Coq Require Import String ZArith List Bool Lia.
From Verif Require Import M_Base M_Config M_SizeClass M_OS M_Slab M_Region M_Api M_Hist S_SizeClass S_Slab S_Heap S_Class
  P_Api3 P_Api4 P_Api5 P_Api6 P_Api7 P_Api8 P_Demo P_Demo2.
Import ListNotations.
Open Scope Z_scope.

(** the bytes of the cached empty slabs stay within the limit, unless the kernel has refused a
    memory call with ENOMEM *)
Theorem C41_bounded : forall (g : config) (W : store_rule) (o : os) (t : trace) (s : state) (a k : Z) (l : list Z),
  usable_config g = true -> history g W o t s -> is_init s = true ->
  exists_class g a k -> empty_slabs (st_cls s a k) l ->
  slab_bytes g k * Z.of_nat (length l) <= cache_limit g \/ kernel_refused (boot g o) s.
Proof. exact C41_l. Qed.
Print Assumptions C41_bounded.

(** an empty slab that is not in the cache is inaccessible and reads as zero *)
Theorem C41_returned : forall (g : config) (W : store_rule) (o : os) (t : trace) (s : state) (a k i x : Z),
  usable_config g = true -> history g W o t s -> is_init s = true ->
  exists_class g a k -> in_slab_no g s a k i x -> k <> 0 ->
  ~ holds (st_cls s a k) i -> ~ cached (st_cls s a k) i ->
  inaccessible s x /\ content s x = 0.
Proof. exact C41_returned_l. Qed.
Print Assumptions C41_returned.

(** a slab of 65536 bytes is cached, which is the limit *)
Example C41_case : history g1 (own_store g1) o0 tC sC /\ is_init sC = true /\ exists_class g1 0 36 /\
  empty_slabs (st_cls sC 0 36) [0] /\ slab_bytes g1 36 * Z.of_nat (length [0]) = cache_limit g1.
Proof. split; [exact histC|]. split; [exact initC|]. split; [unfold exists_class; cbn; lia|]. split; [exact emptyC|reflexivity]. Qed.
