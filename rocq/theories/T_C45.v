(** C45: the allocator itself never faults on valid use. *)
From Coq Require Import String ZArith List Bool Lia.
From Verif Require Import M_Base M_Config M_SizeClass M_OS M_Slab M_Region M_Api M_Hist S_SizeClass S_Heap
  P_Api3 P_Api4 P_Api5 P_Api6 P_Api7 P_Demo P_Refute.
Import ListNotations.
Open Scope Z_scope.

(** valid use: only the kernel, start-up without memory, or a wrong size for free_sized can end the process *)
Theorem C45_valid_use : forall (g : config) (o : os) (t : trace) (s : state) (tid : Z) (c : op) (f : fault),
  usable_config g = true -> history g (own_store g) o t s ->
  ends g (own_store g) t s tid c f -> valid_call g t s c ->
  kernel_abort f \/ startup_abort f /\ is_init s = false \/ size_mismatch f /\ (exists p n, c = OFreeSized p n /\ is_live t p).
Proof. exact C45_valid_l. Qed.
Print Assumptions C45_valid_use.

(** any program, whatever it stores and frees: every call other than malloc_object_size returns or ends with one of the documented fatal errors; it never accesses inaccessible memory, indexes out of bounds, divides by zero or loops *)
Theorem C45_any_use : forall (g : config) (W : store_rule) (o : os) (t : trace) (s : state) (tid : Z) (c : op) (f : fault),
  usable_config g = true -> history g W o t s -> ends g W t s tid c f ->
  kernel_abort f \/ (exists m, f = Fatal m) \/ (exists p, c = OObjectSize p) \/ (exists x v, c = OWrite x v).
Proof. exact C45_no_misbehaviour. Qed.
Print Assumptions C45_any_use.

Example C45_case : history g0 (own_store g0) o0 t1 s1 /\ valid_call g0 t1 s1 (OFreeSized 25784834800 105) /\
  ends g0 (own_store g0) t1 s1 0 (OFreeSized 25784834800 105) (Fatal "sized deallocation mismatch (small)").
Proof.
  split; [exact demo1_history|]. split; [right; eexists; cbn; eauto 10|look1 (LEnd 0 (OFreeSized 25784834800 105) (Fatal "sized deallocation mismatch (small)"))].
Qed.
