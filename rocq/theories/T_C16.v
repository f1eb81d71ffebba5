(** C16: realloc of blocks with an alignment above the page size and a small size. *)
From Coq Require Import String ZArith List Bool Lia.
From Verif Require Import M_Base M_Config M_SizeClass M_OS M_Slab M_Region M_Api M_Hist S_SizeClass S_Heap
  P_Api3 P_Api4 P_Api5 P_Api6 P_Api7 P_Demo P_Refute.
Import ListNotations.
Open Scope Z_scope.

(** the property is false of the code: realloc of such a live block indexes the size class tables out of bounds *)
Theorem C16_realloc_accepts_any_live_refuted : exists (g : config) (o : os) (t : trace) (s : state) (p : Z) (c : op) (tid n : Z) (m : string),
  usable_config g = true /\ history g (own_store g) o t s /\ In (p, c) (live t) /\ run (op_run g tid (ORealloc p n)) s = Fail (UB m).
Proof. exact C16_bad. Qed.
Print Assumptions C16_realloc_accepts_any_live_refuted.

(** for all other live blocks realloc returns (a pointer or NULL) unless the kernel fails unexpectedly *)
Theorem C16_realloc_returns_partial : forall (g : config) (o : os) (t : trace) (s : state) (tid p n : Z) (c : op),
  usable_config g = true -> history g (own_store g) o t s -> table_cleared s ->
  In (p, c) (live t) -> ~ overaligned g c -> word n ->
  (exists a s', run (op_run g tid (ORealloc p n)) s = Ok (a, s') /\ (a = ANull \/ exists q, a = APtr q)) \/
  (exists f, run (op_run g tid (ORealloc p n)) s = Fail f /\ kernel_abort f).
Proof. exact C16_returns. Qed.
Print Assumptions C16_realloc_returns_partial.

Example C16_case : history g0 (own_store g0) o0 t1 s1 /\ In (73014509568, OMemalign 65536 200000) (live t1) /\ ~ overaligned g0 (OMemalign 65536 200000) /\ overaligned g0 (OMemalign 8192 16).
Proof. split; [exact demo1_history|]. split; [cbn; tauto|]. unfold overaligned. cbn. lia. Qed.
