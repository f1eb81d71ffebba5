(** C17: malloc_usable_size is exact, stable and validates its argument. *)
From Coq Require Import String ZArith List Bool Lia.
From Verif Require Import M_Base M_Config M_SizeClass M_OS M_Slab M_Region M_Api M_Hist S_SizeClass S_Heap
  P_Api3 P_Api4 P_Api5 P_Api6 P_Api7 P_Demo P_Refute.
Import ListNotations.
Open Scope Z_scope.

(** exact for blocks from malloc and calloc: the request rounded to the documented size, minus the canary *)
Theorem C17_exact : forall (g : config) (W : store_rule) (o : os) (t : trace) (s : state) (p : Z) (c : op) (m n : Z),
  usable_config g = true -> history g W o t s ->
  In (p, c) (live t) -> c = OMalloc m \/ (exists a b, c = OCalloc a b /\ m = a * b) -> word m -> usable_size g s p n ->
  malloc_size g m n.
Proof. exact C17_exact_l. Qed.
Print Assumptions C17_exact.

(** any small block: a documented small size minus the canary, or 0 *)
Theorem C17_small_sizes : forall (g : config) (W : store_rule) (o : os) (t : trace) (s : state) (p : Z) (c : op) (n : Z),
  usable_config g = true -> history g W o t s ->
  In (p, c) (live t) -> usable_size g s p n -> n + canary_size g <= max_slab_size_class g -> ~ overaligned g c ->
  n = 0 \/ slab_class (max_slab_size_class g) (n + canary_size g).
Proof. exact C17_sizes. Qed.
Print Assumptions C17_small_sizes.

(** the same value for the whole life of a block *)
Theorem C17_stable : forall (g : config) (W : store_rule) (o : os) (t : trace) (s : state) (t' : trace) (s' : state) (p : Z) (c : op) (n n' : Z),
  usable_config g = true -> history g W o t s ->
  In (p, c) (live t) -> continues g W t s t' s' -> (forall e, In e (since t t') -> keeps (e_op e) (e_ans e) p) ->
  usable_size g s p n -> usable_size g s' p n' -> n' = n.
Proof. exact C17_stable_l. Qed.
Print Assumptions C17_stable.

(** a pointer that is not live aborts *)
Theorem C17_invalid_aborts : forall (g : config) (W : store_rule) (o : os) (t : trace) (s : state) (p : Z),
  usable_config g = true -> history g W o t s ->
  word p -> p <> 0 -> ~ is_live t p -> exists m, run (h_malloc_usable_size g p) s = Fail (Fatal m).
Proof. exact C17_dead. Qed.
Print Assumptions C17_invalid_aborts.

(** NULL *)
Theorem C17_null_is_0 : forall (g : config) (s : state) (n : Z), usable_size g s 0 n <-> n = 0.
Proof. exact C17_null. Qed.
Print Assumptions C17_null_is_0.

(** it answers for every live block if the program stores only inside its blocks *)
Theorem C17_returns : forall (g : config) (o : os) (t : trace) (s : state) (p : Z) (c : op),
  usable_config g = true -> history g (own_store g) o t s -> In (p, c) (live t) -> exists n, usable_size g s p n.
Proof. exact usable_returns. Qed.
Print Assumptions C17_returns.

Example C17_case :
  history g0 (own_store g0) o0 t1 s1 /\ In (25784834800, OMalloc 100) (live t1) /\ usable_size g0 s1 25784834800 104 /\
  continues g0 (own_store g0) t1 s1 t2 s2 /\ length (since t1 t2) = 6%nat /\
  (forall e, In e (since t1 t2) -> keeps (e_op e) (e_ans e) 25784834800) /\ usable_size g0 s2 25784834800 104 /\
  ~ is_live t1 25797181888.
Proof.
  split; [exact demo1_history|]. split; [cbn; tauto|]. split; [look1 (LUsable 25784834800 104)|]. split; [exact demo_continues|]. split; [reflexivity|].
  split; [|split; [look2 (LUsable 25784834800 104)|intros (c & I); cbn in I; intuition congruence]].
  intros e I. cbn in I. unfold keeps. intuition (subst; cbn; intuition congruence).
Qed.
