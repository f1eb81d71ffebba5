(** C06: bad alignments are rejected, exactly with EINVAL, without side effects. *)
From Coq Require Import String ZArith List Bool Lia.
From Verif Require Import M_Base M_Config M_SizeClass M_OS M_Slab M_Region M_Api M_Hist S_SizeClass S_Heap
  P_Api3 P_Api4 P_Api5 P_Api6 P_Api7 P_Demo P_Refute.
Import ListNotations.
Open Scope Z_scope.

(** EINVAL if and only if the alignment is bad *)
Theorem C06_rejected_iff_bad : forall (g : config) (W : store_rule) (o : os) (t : trace) (s : state) (tid : Z) (c : op) (a : ans) (s' : state),
  usable_config g = true -> history g W o t s ->
  calls g W t s tid c a s' -> allocates c = true -> ~ plain c ->
  (bad_alignment c <-> fails c a s' EINVAL).
Proof. exact C06_rejects. Qed.
Print Assumptions C06_rejected_iff_bad.

(** a failing allocation (for whatever reason) returns no pointer, so *memptr is not written, and leaves every live block alone *)
Theorem C06_no_side_effects : forall (g : config) (W : store_rule) (o : os) (t : trace) (s : state) (tid : Z) (c : op) (a : ans) (s' : state),
  usable_config g = true -> history g W o t s ->
  calls g W t s tid c a s' -> allocates c = true -> (forall p, a <> APtr p) ->
  undisturbed g (live t) s s' /\ live (mkEv tid c a :: t) = live t.
Proof. exact C06_quiet. Qed.
Print Assumptions C06_no_side_effects.

Example C06_case :
  history g0 (own_store g0) o0 t1 s1 /\ bad_alignment (OPosixMemalign 3 10) /\
  (exists s', calls g0 (own_store g0) t1 s1 0 (OPosixMemalign 3 10) (AErr EINVAL) s') /\
  (exists s', calls g0 (own_store g0) t1 s1 0 (OAlignedAlloc 48 48) ANull s') /\
  ~ bad_alignment (OPosixMemalign 32 100) /\
  (exists s', calls g0 (own_store g0) t1 s1 0 (OPosixMemalign 32 100) (APtr 25786941824) s').
Proof.
  split; [exact demo1_history|]. split; [cbn; lia|]. split; [look1 (LCall 0 (OPosixMemalign 3 10) (AErr 22))|].
  split; [look1 (LCall 0 (OAlignedAlloc 48 48) ANull)|]. split; [|look1 (LCall 0 (OPosixMemalign 32 100) (APtr 25786941824))].
  cbn. intros N. apply N. split; [exists 5; lia|lia].
Qed.
