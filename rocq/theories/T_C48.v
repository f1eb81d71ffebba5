(** C48: realloc validates the old pointer. *)
From Coq Require Import String ZArith List Bool Lia.
From Verif Require Import M_Base M_Config M_SizeClass M_OS M_Slab M_Region M_Api M_Hist S_SizeClass S_Heap S_Class
  P_Api3 P_Api4 P_Api5 P_Api6 P_Api7 P_Api8 P_Api9 P_Api10 P_Demo P_Refute.
Import ListNotations.
Open Scope Z_scope.

(** the property is false of the code: realloc of a freed pointer with a size of the same class returns it *)
Theorem C48_realloc_validates_refuted : exists (g : config) (o : os) (t : trace) (s : state) (p n tid : Z) (s' : state),
  usable_config g = true /\ history g (own_store g) o t s /\ p <> 0 /\ ~ is_live t p /\ run (op_run g tid (ORealloc p n)) s = Ok (APtr p, s').
Proof. exact C48_bad. Qed.
Print Assumptions C48_realloc_validates_refuted.

(** what the code does guarantee.  Missing from the property: the case of
    [C48_realloc_validates_refuted], a dead pointer into the area for small blocks together with a
    size of the same class.  Outside that area realloc of a dead pointer always ends the process,
    except that a request too large for the address space fails first. *)
Theorem C48_realloc_validates_partial : forall (g : config) (W : store_rule) (o : os) (t : trace) (s : state) (p n tid : Z),
  usable_config g = true -> history g W o t s -> word p -> word n -> p <> 0 -> ~ is_live t p -> ~ in_small_area s p ->
  (exists m, run (op_run g tid (ORealloc p n)) s = Fail (Fatal m)) \/ (exists r, rounds_to g n r /\ 2 ^ 64 <= r).
Proof. exact C48_large_l. Qed.
Print Assumptions C48_realloc_validates_partial.

(** inside that area, realloc of a dead pointer hands out nothing but the dead pointer itself,
    and then changes nothing: it never copies from, frees or moves memory that is not allocated *)
Theorem C48_realloc_small_partial : forall (g : config) (W : store_rule) (o : os) (t : trace) (s : state) (p n tid q : Z) (s' : state),
  usable_config g = true -> history g W o t s -> word p -> word n -> p <> 0 -> ~ is_live t p -> in_small_area s p -> table_cleared s ->
  run (op_run g tid (ORealloc p n)) s = Ok (APtr q, s') -> q = p /\ s' = s.
Proof. exact C48_small_l. Qed.
Print Assumptions C48_realloc_small_partial.

Example C48_partial_case : history g0 (own_store g0) o0 t1 s1 /\ ~ is_live t1 64424538113 /\ run (op_run g0 0 (ORealloc 64424538113 100)) s1 = Fail (Fatal "invalid realloc").
Proof.
  split; [exact demo1_history|]. split; [intros (c & I); cbn in I; intuition congruence|]. exact (bad_realloc_ok s1 ltac:(look1 (LOther bad_realloc))).
Qed.

(** the theorem is its own witness; the freed pointer of the demonstration program *)
Example C48_case : ~ is_live t1 25797181888 /\ In (mkEv 0 (OFree 25797181888) AUnit) t1.
Proof. split; [intros (c & I); cbn in I; intuition congruence|left; reflexivity]. Qed.
