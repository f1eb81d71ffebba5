(** C07: live blocks never overlap. *)
From Coq Require Import String ZArith List Bool Lia.
From Verif Require Import M_Base M_Config M_SizeClass M_OS M_Slab M_Region M_Api M_Hist S_SizeClass S_Heap
  P_Api3 P_Api4 P_Api5 P_Api6 P_Api7 P_Demo P_Refute.
Import ListNotations.
Open Scope Z_scope.

(** no pointer is live twice *)
Theorem C07_distinct : forall (g : config) (W : store_rule) (o : os) (t : trace) (s : state),
  usable_config g = true -> history g W o t s -> NoDup (map fst (live t)).
Proof. exact C07_distinct_l. Qed.
Print Assumptions C07_distinct.

(** no byte belongs to two live blocks *)
Theorem C07_disjoint : forall (g : config) (W : store_rule) (o : os) (t : trace) (s : state) (p : Z) (c : op) (n q : Z) (d : op) (m x : Z),
  usable_config g = true -> history g W o t s ->
  In (p, c) (live t) -> In (q, d) (live t) -> p <> q -> extent g s p c n -> extent g s q d m ->
  ~ (p <= x < p + n /\ q <= x < q + m).
Proof. exact C07_apart. Qed.
Print Assumptions C07_disjoint.

Example C07_case :
  history g0 (own_store g0) o0 t2 s2 /\ length (live t2) = 9%nat /\
  In (25784834800, OMalloc 100) (live t2) /\ In (25784835360, OMalloc 104) (live t2) /\
  usable_size g0 s2 25784834800 104 /\ usable_size g0 s2 25784835360 104.
Proof.
  split; [exact demo2_history|]. split; [reflexivity|]. split; [cbn; tauto|]. split; [cbn; tauto|].
  split; [look2 (LUsable 25784834800 104)|look2 (LUsable 25784835360 104)].
Qed.
