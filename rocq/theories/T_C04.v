(** C04: calloc never returns a block shorter than nmemb*size, and it is zeroed. *)
From Coq Require Import String ZArith List Bool Lia.
From Verif Require Import M_Base M_Config M_SizeClass M_OS M_Slab M_Region M_Api M_Hist S_SizeClass S_Heap
  P_Api3 P_Api4 P_Api5 P_Api6 P_Api7 P_Demo P_Refute.
Import ListNotations.
Open Scope Z_scope.

(** a product that does not fit size_t fails with ENOMEM and touches nothing *)
Theorem C04_overflow : forall (g : config) (W : store_rule) (t : trace) (s : state) (tid m n : Z) (a : ans) (s' : state),
  calls g W t s tid (OCalloc m n) a s' -> 2 ^ 64 <= m * n ->
  a = ANull /\ errno (st_os s') = ENOMEM /\ st_os s' = set_errno ENOMEM (st_os s).
Proof. exact C04_overflow_l. Qed.
Print Assumptions C04_overflow.

(** otherwise all m*n bytes are usable and zero.  Without CONFIG_ZERO_ON_FREE this holds whatever
    the program stored to freed memory; with it, for programs that store only inside their blocks *)
Theorem C04_zeroed : forall (g : config) (W : store_rule) (o : os) (t : trace) (s : state) (tid m n p : Z) (s' : state),
  usable_config g = true -> history g W o t s ->
  calls g W t s tid (OCalloc m n) (APtr p) s' -> (ZERO_ON_FREE g = true -> W = own_store g) ->
  m * n < 2 ^ 64 /\ (forall x, p <= x < p + m * n -> accessible s' x /\ content s' x = 0).
Proof. exact C04_zero_l. Qed.
Print Assumptions C04_zeroed.

Example C04_case :
  history g0 (own_store g0) o0 t1 s1 /\ ZERO_ON_FREE g0 = true /\
  (exists s', calls g0 (own_store g0) t1 s1 0 (OCalloc 13 15) (APtr 25793645856) s') /\
  (exists s', calls g0 (own_store g0) t1 s1 1 (OCalloc 9223372036854775808 2) ANull s').
Proof.
  split; [exact demo1_history|]. split; [reflexivity|].
  split; [look1 (LCall 0 (OCalloc 13 15) (APtr 25793645856))|look1 (LCall 1 (OCalloc 9223372036854775808 2) ANull)].
Qed.
