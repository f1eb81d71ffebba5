(** C01: a granted block is at least as large as requested and usable memory. *)
From Coq Require Import String ZArith List Bool Lia.
From Verif Require Import M_Base M_Config M_SizeClass M_OS M_Slab M_Region M_Api M_Hist S_SizeClass S_Heap
  P_Api3 P_Api4 P_Api5 P_Api6 P_Api7 P_Demo P_Refute.
Import ListNotations.
Open Scope Z_scope.

(** a block returned by any allocation function, for every program whatever it stores *)
Theorem C01_returned_block : forall (g : config) (W : store_rule) (o : os) (t : trace) (s : state) (tid : Z) (c : op) (p : Z) (s' : state),
  usable_config g = true -> history g W o t s ->
  calls g W t s tid c (APtr p) s' -> allocates c = true ->
  exists n, request c <= n /\ (forall x, p <= x < p + n -> accessible s' x) /\ (forall m, usable_size g s' p m -> m = n).
Proof. exact C01_alloc. Qed.
Print Assumptions C01_returned_block.

(** and at every later moment, as long as the block is live *)
Theorem C01_live_block : forall (g : config) (W : store_rule) (o : os) (t : trace) (s : state) (p : Z) (c : op),
  usable_config g = true -> history g W o t s -> In (p, c) (live t) ->
  exists n, request c <= n /\ (forall x, p <= x < p + n -> accessible s x) /\ (forall m, usable_size g s p m -> m = n).
Proof. exact C01_live. Qed.
Print Assumptions C01_live_block.

(** malloc_usable_size does report that size if the program stores only inside its blocks *)
Theorem C01_size_reported : forall (g : config) (o : os) (t : trace) (s : state) (p : Z) (c : op),
  usable_config g = true -> history g (own_store g) o t s -> In (p, c) (live t) ->
  exists n, usable_size g s p n /\ request c <= n.
Proof. exact C01_reported. Qed.
Print Assumptions C01_size_reported.

(** non-vacuity: a program with small, zero-size, calloc, aligned and large blocks; the
    configurations of the project are usable *)
Example C01_case :
  usable_config g0 = true /\ history g0 (own_store g0) o0 t1 s1 /\
  In (25784834800, OMalloc 100) (live t1) /\ usable_size g0 s1 25784834800 104 /\
  In (73014509568, OMemalign 65536 200000) (live t1) /\ usable_size g0 s1 73014509568 229376.
Proof.
  split; [reflexivity|]. split; [exact demo1_history|]. split; [cbn; tauto|]. split; [look1 (LUsable 25784834800 104)|].
  split; [cbn; tauto|look1 (LUsable 73014509568 229376)].
Qed.
Example C01_case_call : exists s', calls g0 (own_store g0) t1 s1 0 (OMalloc 1000) (APtr 25812790272) s'.
Proof. look1 (LCall 0 (OMalloc 1000) (APtr 25812790272)). Qed.
Example C01_configs : usable_config default_config = true /\ usable_config light_config = true.
Proof. split; vm_compute; reflexivity. Qed.
