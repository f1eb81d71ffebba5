(** C14: realloc preserves contents and frees exactly the old block. *)
From Coq Require Import String ZArith List Bool Lia.
From Verif Require Import M_Base M_Config M_SizeClass M_OS M_Slab M_Region M_Api M_Hist S_SizeClass S_Heap
  P_Api3 P_Api4 P_Api5 P_Api6 P_Api7 P_Demo P_Refute.
Import ListNotations.
Open Scope Z_scope.

(** a realloc of a live block (not over-aligned and small, see C16) that returns a pointer *)
Theorem C14_realloc_moves : forall (g : config) (W : store_rule) (o : os) (t : trace) (s : state) (tid p : Z) (c : op) (n0 n q : Z) (s' : state),
  usable_config g = true -> history g W o t s ->
  In (p, c) (live t) -> extent g s p c n0 -> calls g W t s tid (ORealloc p n) (APtr q) s' ->
  (forall i, 0 <= i < Z.min n n0 -> content s' (q + i) = content s (p + i)) /\
  (exists m, n <= m /\ (forall x, q <= x < q + m -> accessible s' x) /\ (forall m', usable_size g s' q m' -> m' = m)) /\
  undisturbed g (forget p (live t)) s s' /\
  (q <> p -> ~ is_live (mkEv tid (ORealloc p n) (APtr q) :: t) p) /\
  is_live (mkEv tid (ORealloc p n) (APtr q) :: t) q.
Proof. exact C14_moved. Qed.
Print Assumptions C14_realloc_moves.

(** a small block that moves, a small block that stays, a large block that moves *)
Example C14_case :
  history g0 (own_store g0) o0 t1 s1 /\ In (25784834800, OMalloc 100) (live t1) /\ usable_size g0 s1 25784834800 104 /\
  (exists s', calls g0 (own_store g0) t1 s1 0 (ORealloc 25784834800 1000) (APtr 25812790272) s') /\
  (exists s', calls g0 (own_store g0) t1 s1 0 (ORealloc 25784834800 101) (APtr 25784834800) s') /\
  (exists s', calls g0 (own_store g0) t1 s1 0 (ORealloc 64424538112 300000) (APtr 98784350208) s').
Proof.
  split; [exact demo1_history|]. split; [cbn; tauto|]. split; [look1 (LUsable 25784834800 104)|].
  split; [look1 (LCall 0 (ORealloc 25784834800 1000) (APtr 25812790272))|].
  split; [look1 (LCall 0 (ORealloc 25784834800 101) (APtr 25784834800))|look1 (LCall 0 (ORealloc 64424538112 300000) (APtr 98784350208))].
Qed.
