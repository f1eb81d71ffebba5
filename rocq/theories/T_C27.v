(** C27: free preserves errno. *)
From Coq Require Import String ZArith List Bool Lia.
From Verif Require Import M_Base M_Config M_SizeClass M_OS M_Slab M_Region M_Api M_Hist S_SizeClass S_Heap
  P_Api3 P_Api4 P_Api5 P_Api6 P_Api7 P_Demo P_Refute.
Import ListNotations.
Open Scope Z_scope.

(** also when system calls fail with ENOMEM.  The one exception is a signal during getrandom (EINTR), which the code does not hide on this path *)
Theorem C27_errno_preserved_partial : forall (g : config) (W : store_rule) (o : os) (t : trace) (s : state) (tid p : Z) (a : ans) (s' : state),
  usable_config g = true -> history g W o t s ->
  calls g W t s tid (OFree p) a s' -> (forall n, en_errno (entq (st_os s) n) <> EINTR) ->
  errno (st_os s') = errno (st_os s).
Proof. exact C27_errno. Qed.
Print Assumptions C27_errno_preserved_partial.

Example C27_case : history g0 (own_store g0) o0 t1 s1 /\ (exists s', calls g0 (own_store g0) t1 s1 0 (OFree 64424538112) AUnit s') /\ (forall n, en_errno (entq o0 n) <> EINTR).
Proof. split; [exact demo1_history|]. split; [look1 (LCall 0 (OFree 64424538112) AUnit)|]. intros n. cbn. discriminate. Qed.
