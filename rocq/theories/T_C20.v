(** C20: zero-size blocks are distinct and inaccessible. *)
From Coq Require Import String ZArith List Bool Lia.
From Verif Require Import M_Base M_Config M_SizeClass M_OS M_Slab M_Region M_Api M_Hist S_SizeClass S_Heap
  P_Api3 P_Api4 P_Api5 P_Api6 P_Api7 P_Demo P_Refute.
Import ListNotations.
Open Scope Z_scope.

(** the pointer of a zero-size block is not NULL and no other live block has it *)
Theorem C20_distinct : forall (g : config) (W : store_rule) (o : os) (t : trace) (s : state) (p : Z) (c : op),
  usable_config g = true -> history g W o t s ->
  In (p, c) (live t) -> 0 < p /\ NoDup (map fst (live t)).
Proof. exact C20_distinct_l. Qed.
Print Assumptions C20_distinct.

(** its usable size is 0 *)
Theorem C20_usable_size_0 : forall (g : config) (W : store_rule) (o : os) (t : trace) (s : state) (p : Z) (c : op),
  usable_config g = true -> history g W o t s ->
  In (p, c) (live t) -> c = OMalloc 0 \/ (exists a b, c = OCalloc a b /\ a * b = 0) ->
  forall n, usable_size g s p n -> n = 0.
Proof. exact C20_size. Qed.
Print Assumptions C20_usable_size_0.

(** its page faults on every access, from now on for ever, also after the block was freed *)
Theorem C20_never_accessible : forall (g : config) (W : store_rule) (o : os) (t : trace) (s : state) (p : Z) (c : op) (t' : trace) (s' : state),
  usable_config g = true -> history g W o t s ->
  In (p, c) (live t) -> c = OMalloc 0 \/ (exists a b, c = OCalloc a b /\ a * b = 0) -> continues g W t s t' s' ->
  inaccessible s' p.
Proof. exact C20_never_l. Qed.
Print Assumptions C20_never_accessible.

Example C20_case :
  history g0 (own_store g0) o0 t1 s1 /\ In (25770672192, OMalloc 0) (live t1) /\ usable_size g0 s1 25770672192 0 /\
  continues g0 (own_store g0) t1 s1 t2 s2 /\ In (25770676096, OMalloc 0) (live t2) /\ inaccessible s2 25770672192.
Proof.
  split; [exact demo1_history|]. split; [cbn; tauto|]. split; [look1 (LUsable 25770672192 0)|]. split; [exact demo_continues|].
  split; [cbn; tauto|look2 (LNone 25770672192)].
Qed.
