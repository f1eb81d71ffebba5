(** C13: free wipes small blocks immediately. *)
From Coq Require Import String ZArith List Bool Lia.
From Verif Require Import M_Base M_Config M_SizeClass M_OS M_Slab M_Region M_Api M_Hist S_SizeClass S_Heap
  P_Api3 P_Api4 P_Api5 P_Api6 P_Api7 P_Demo P_Refute.
Import ListNotations.
Open Scope Z_scope.

(** with CONFIG_ZERO_ON_FREE, right after free or free_sized every byte of the former usable range is zero *)
Theorem C13_freed_bytes_zero : forall (g : config) (W : store_rule) (o : os) (t : trace) (s : state) (tid p : Z) (c : op) (n x : Z) (e : op) (s' : state),
  usable_config g = true -> ZERO_ON_FREE g = true -> history g W o t s ->
  In (p, c) (live t) -> small g s p c n -> e = OFree p \/ (exists m, e = OFreeSized p m) ->
  calls g W t s tid e AUnit s' -> p <= x < p + n ->
  content s' x = 0.
Proof. exact C13_wiped. Qed.
Print Assumptions C13_freed_bytes_zero.

(** and no other live block changes *)
Theorem C13_others_unchanged : forall (g : config) (W : store_rule) (o : os) (t : trace) (s : state) (tid : Z) (c : op) (a : ans) (s' : state) (p : Z),
  usable_config g = true -> history g W o t s ->
  calls g W t s tid c a s' -> releases c = Some p ->
  undisturbed g (forget p (live t)) s s'.
Proof. exact frame_released. Qed.
Print Assumptions C13_others_unchanged.

Example C13_case :
  ZERO_ON_FREE g0 = true /\ history g0 (own_store g0) o0 t1 s1 /\ In (25784834800, OMalloc 100) (live t1) /\
  small g0 s1 25784834800 (OMalloc 100) 104 /\ content s1 25784834805 = 42 /\
  exists s', calls g0 (own_store g0) t1 s1 0 (OFree 25784834800) AUnit s'.
Proof.
  split; [reflexivity|]. split; [exact demo1_history|]. split; [cbn; tauto|]. split.
  - split; [look1 (LUsable 25784834800 104)|]. split; [vm_compute; discriminate|]. unfold overaligned. cbn. lia.
  - split; [look1 (LByte 25784834805 42)|look1 (LCall 0 (OFree 25784834800) AUnit)].
Qed.
