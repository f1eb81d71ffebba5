(** C25: out of memory is reported cleanly. *)
From Coq Require Import String ZArith List Bool Lia.
From Verif Require Import M_Base M_Config M_SizeClass M_OS M_Slab M_Region M_Api M_Hist S_SizeClass S_Heap
  P_Api3 P_Api4 P_Api5 P_Api6 P_Api7 P_Demo P_Refute.
Import ListNotations.
Open Scope Z_scope.

(** an allocation that fails leaves all live blocks alone; it reports EINVAL for a bad alignment and ENOMEM otherwise, except when the table of large blocks cannot grow *)
Theorem C25_failure_partial : forall (g : config) (W : store_rule) (o : os) (t : trace) (s : state) (tid : Z) (c : op) (a : ans) (s' : state),
  usable_config g = true -> history g W o t s ->
  calls g W t s tid c a s' -> allocates c = true -> (forall p, a <> APtr p) ->
  undisturbed g (live t) s s' /\ live (mkEv tid c a :: t) = live t /\
  (fails c a s' EINVAL /\ bad_alignment c \/
   fails c a s' ENOMEM /\ ~ bad_alignment c \/
   a = ANull /\ plain c /\ table_limit g s /\ max_slab_size_class g < request c + canary_size g).
Proof. exact C25_failure. Qed.
Print Assumptions C25_failure_partial.

(** in that case it is false of the code: malloc returns NULL and errno stays 0 *)
Theorem C25_errno_set_refuted : exists (g : config) (o : os) (t : trace) (s : state) (tid n : Z) (s' : state),
  usable_config g = true /\ history g (own_store g) o t s /\ calls g (own_store g) t s tid (OMalloc n) ANull s' /\
  errno (st_os s) = 0 /\ errno (st_os s') = 0.
Proof. exact C25_bad. Qed.
Print Assumptions C25_errno_set_refuted.

(** the history with the failed call is again a history, so the allocator keeps working *)
Example C25_case : history g0 (own_store g0) o0 t1 s1 /\
  (exists s', calls g0 (own_store g0) t1 s1 0 (OMalloc 18446744073709551615) ANull s' /\
     history g0 (own_store g0) o0 (mkEv 0 (OMalloc 18446744073709551615) ANull :: t1) s').
Proof.
  split; [exact demo1_history|]. destruct (demo1_looks (LCall 0 (OMalloc 18446744073709551615) ANull) ltac:(in_list)) as (s' & C). exists s'. split; [exact C|].
  destruct C as (C1 & C2 & C3 & C4 & C5). econstructor; eauto. exact demo1_history.
Qed.
