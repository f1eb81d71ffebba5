(** C52: no block is larger than PTRDIFF_MAX or wraps around the address space. *)
From Coq Require Import String ZArith List Bool Lia.
From Verif Require Import M_Base M_Config M_SizeClass M_OS M_Slab M_Region M_Api M_Hist S_Heap P_Demo P_Fit.
Import ListNotations.
Open Scope Z_scope.

(** every byte of a live block, up to its usable size, has a positive address below 2^48: the difference of two pointers
    into a block fits in ptrdiff_t and pointer arithmetic in a block does not wrap *)
Theorem C52_blocks_fit : forall (g : config) (W : store_rule) (o : os) (t : trace) (s : state) (p : Z) (c : op) (n : Z),
  usable_config g = true -> history g W o t s -> In (p, c) (live t) -> usable_size g s p n ->
  0 < p /\ request c <= n /\ p + n < 2 ^ 48.
Proof. exact C52_fit_l. Qed.
Print Assumptions C52_blocks_fit.

(** a request that does not fit never succeeds, whatever the kernel answers; [request] is the mathematical product for
    calloc *)
Theorem C52_huge_requests_fail : forall (g : config) (W : store_rule) (o : os) (t : trace) (s : state) (tid : Z) (c : op) (a : ans) (s' : state),
  usable_config g = true -> history g W o t s -> calls g W t s tid c a s' -> allocates c = true ->
  2 ^ 48 <= request c -> forall p, a <> APtr p.
Proof. exact C52_huge_l. Qed.
Print Assumptions C52_huge_requests_fail.

Example C52_case :
  usable_config g0 = true /\ history g0 (own_store g0) o0 t1 s1 /\ In (64424538112, OMalloc 200000) (live t1) /\ usable_size g0 s1 64424538112 229376 /\
  exists s', calls g0 (own_store g0) t1 s1 0 (OMalloc 18446744073709551615) ANull s' /\ 2 ^ 48 <= request (OMalloc 18446744073709551615).
Proof.
  split; [reflexivity|]. split; [exact demo1_history|]. split; [cbn; tauto|]. split; [look1 (LUsable 64424538112 229376)|].
  destruct (demo1_looks (LCall 0 (OMalloc 18446744073709551615) ANull) ltac:(in_list)) as (s' & C). exists s'. split; [exact C|]. cbn [request]. lia.
Qed.
