(** C19: free_sized accepts the allocation size and rejects other classes. *)
From Coq Require Import String ZArith List Bool Lia.
From Verif Require Import M_Base M_Config M_SizeClass M_OS M_Slab M_Region M_Api M_Hist S_SizeClass S_Heap
  P_Api3 P_Api4 P_Api5 P_Api6 P_Api7 P_Demo P_Refute.
Import ListNotations.
Open Scope Z_scope.

(** a block from malloc(m): free_sized(p, n) succeeds only if m and n round to the same size, and aborts with a mismatch only if not *)
Theorem C19_free_sized_partial : forall (g : config) (o : os) (t : trace) (s : state) (tid p m n : Z),
  usable_config g = true -> history g (own_store g) o t s ->
  In (p, OMalloc m) (live t) -> word n -> m <> 0 \/ n <= 7 * 2 ^ 61 ->
  (exists s', run (op_run g tid (OFreeSized p n)) s = Ok (AUnit, s') /\ same_size g m n) \/
  (exists f, run (op_run g tid (OFreeSized p n)) s = Fail f /\ (size_mismatch f /\ ~ same_size g m n \/ kernel_abort f)).
Proof. exact C19_own. Qed.
Print Assumptions C19_free_sized_partial.

(** without the condition on zero-size blocks it is false: a huge size passes for a zero-size block *)
Theorem C19_zero_size_refuted : exists (g : config) (o : os) (t : trace) (s : state) (p n tid : Z) (s' : state),
  usable_config g = true /\ history g (own_store g) o t s /\ In (p, OMalloc 0) (live t) /\ word n /\
  run (op_run g tid (OFreeSized p n)) s = Ok (AUnit, s') /\ ~ same_size g 0 n.
Proof. exact C19_zero_bad. Qed.
Print Assumptions C19_zero_size_refuted.

(** for aligned blocks it is false: freeing one with the size it was allocated with aborts *)
Theorem C19_aligned_refuted : exists (g : config) (o : os) (t : trace) (s : state) (p al n tid : Z) (f : fault),
  usable_config g = true /\ history g (own_store g) o t s /\ In (p, OAlignedAlloc al n) (live t) /\
  run (op_run g tid (OFreeSized p n)) s = Fail f /\ size_mismatch f.
Proof. exact C19_aligned_bad. Qed.
Print Assumptions C19_aligned_refuted.

Example C19_case :
  history g0 (own_store g0) o0 t1 s1 /\ In (25784834800, OMalloc 100) (live t1) /\
  (exists s', calls g0 (own_store g0) t1 s1 0 (OFreeSized 25784834800 104) AUnit s') /\
  ends g0 (own_store g0) t1 s1 0 (OFreeSized 25784834800 105) (Fatal "sized deallocation mismatch (small)").
Proof.
  split; [exact demo1_history|]. split; [cbn; tauto|]. split; [look1 (LCall 0 (OFreeSized 25784834800 104) AUnit)|look1 (LEnd 0 (OFreeSized 25784834800 105) (Fatal "sized deallocation mismatch (small)"))].
Qed.
