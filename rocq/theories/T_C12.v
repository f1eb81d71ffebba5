(** C12: fresh memory is zeroed. *)
From Coq Require Import String ZArith List Bool Lia.
From Verif Require Import M_Base M_Config M_SizeClass M_OS M_Slab M_Region M_Api M_Hist S_SizeClass S_Heap
  P_Api3 P_Api4 P_Api5 P_Api6 P_Api7 P_Demo P_Refute.
Import ListNotations.
Open Scope Z_scope.

(** with CONFIG_ZERO_ON_FREE, for programs that store only inside their blocks: every usable byte of a new block is zero *)
Theorem C12_fresh_memory_zero : forall (g : config) (o : os) (t : trace) (s : state) (tid : Z) (c : op) (p : Z) (s' : state) (n x : Z),
  usable_config g = true -> ZERO_ON_FREE g = true -> history g (own_store g) o t s ->
  calls g (own_store g) t s tid c (APtr p) s' -> fresh c -> extent g s' p c n -> p <= x < p + n ->
  content s' x = 0.
Proof. exact C12_zeroed. Qed.
Print Assumptions C12_fresh_memory_zero.

Example C12_case : ZERO_ON_FREE g0 = true /\ history g0 (own_store g0) o0 t1 s1 /\ fresh (OMalloc 1000) /\
  exists s', calls g0 (own_store g0) t1 s1 0 (OMalloc 1000) (APtr 25812790272) s'.
Proof.
  split; [reflexivity|]. split; [exact demo1_history|]. split; [split; [reflexivity|intros; discriminate]|].
  look1 (LCall 0 (OMalloc 1000) (APtr 25812790272)).
Qed.
(** the memory was not zero before the process started *)
Example C12_case_before : content (boot g0 o0) 25812790272 = 7.
Proof. reflexivity. Qed.
