(** C15: a failed realloc leaves the old block intact. *)
From Coq Require Import String ZArith List Bool Lia.
From Verif Require Import M_Base M_Config M_SizeClass M_OS M_Slab M_Region M_Api M_Hist S_SizeClass S_Heap
  P_Api3 P_Api4 P_Api5 P_Api6 P_Api7 P_Demo P_Refute.
Import ListNotations.
Open Scope Z_scope.

(** every live block, the old one included, keeps contents, size and accessibility, and stays live *)
Theorem C15_failed_realloc : forall (g : config) (W : store_rule) (o : os) (t : trace) (s : state) (tid p n : Z) (s' : state),
  usable_config g = true -> history g W o t s ->
  calls g W t s tid (ORealloc p n) ANull s' ->
  undisturbed g (live t) s s' /\ live (mkEv tid (ORealloc p n) ANull :: t) = live t.
Proof. exact C15_intact. Qed.
Print Assumptions C15_failed_realloc.

Example C15_case : history g0 (own_store g0) o0 t1 s1 /\ In (25784834800, OMalloc 100) (live t1) /\
  exists s', calls g0 (own_store g0) t1 s1 0 (ORealloc 25784834800 18446744073709551614) ANull s'.
Proof. split; [exact demo1_history|]. split; [cbn; tauto|look1 (LCall 0 (ORealloc 25784834800 18446744073709551614) ANull)]. Qed.
