(** C05: alignment of every returned pointer. *)
From Coq Require Import String ZArith List Bool Lia.
From Verif Require Import M_Base M_Config M_SizeClass M_OS M_Slab M_Region M_Api M_Hist S_SizeClass S_Heap
  P_Api3 P_Api4 P_Api5 P_Api6 P_Api7 P_Demo P_Refute.
Import ListNotations.
Open Scope Z_scope.

(** malloc, calloc and realloc: 16; the aligned functions: the requested alignment; valloc and pvalloc: a page *)
Theorem C05_alignment : forall (g : config) (W : store_rule) (o : os) (t : trace) (s : state) (p : Z) (c : op),
  usable_config g = true -> history g W o t s -> In (p, c) (live t) ->
  0 < p /\ p mod 16 = 0 /\ p mod alignment c = 0.
Proof. exact C05_live. Qed.
Print Assumptions C05_alignment.

Example C05_case : history g0 (own_store g0) o0 t1 s1 /\ In (73014509568, OMemalign 65536 200000) (live t1) /\
  alignment (OMemalign 65536 200000) = 65536 /\ 73014509568 mod 65536 = 0.
Proof. split; [exact demo1_history|]. split; [cbn; tauto|]. split; reflexivity. Qed.
