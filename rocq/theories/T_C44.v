(** C44: which pages of the area for small blocks are accessible. *)
From Coq Require Import String ZArith List Bool Lia.
From Verif Require Import M_Base M_Config M_SizeClass M_OS M_Slab M_Region M_Api M_Hist S_SizeClass S_Slab S_Heap S_Class
  P_Api3 P_Api4 P_Api5 P_Api6 P_Api7 P_Api8 P_Demo P_Demo2.
Import ListNotations.
Open Scope Z_scope.

(** a byte of slab [i] of a size class is accessible exactly when the slab holds an allocated
    or quarantined slot, or is cached as empty *)
Theorem C44_accessible : forall (g : config) (W : store_rule) (o : os) (t : trace) (s : state) (a k i x : Z),
  usable_config g = true -> history g W o t s -> is_init s = true ->
  exists_class g a k -> in_slab_no g s a k i x -> k <> 0 ->
  (accessible s x <-> holds (st_cls s a k) i \/ cached (st_cls s a k) i).
Proof. exact C44_l. Qed.
Print Assumptions C44_accessible.

(** every other byte of the slabs faults on access, and its content is zero when it is next
    made accessible *)
Theorem C44_zero : forall (g : config) (W : store_rule) (o : os) (t : trace) (s : state) (a k i x : Z),
  usable_config g = true -> history g W o t s -> is_init s = true ->
  exists_class g a k -> in_slab_no g s a k i x -> k <> 0 ->
  ~ accessible s x -> inaccessible s x /\ content s x = 0.
Proof. exact C44_zero_l. Qed.
Print Assumptions C44_zero.

(** the rest of the area for small blocks, that is the slots of size 0 and the gaps between
    the size classes, is never accessible *)
Theorem C44_elsewhere : forall (g : config) (W : store_rule) (o : os) (t : trace) (s : state) (x : Z),
  usable_config g = true -> history g W o t s -> is_init s = true ->
  in_small_area s x -> (forall a k i, exists_class g a k -> k <> 0 -> ~ in_slab_no g s a k i x) ->
  inaccessible s x.
Proof. exact C44_else_l. Qed.
Print Assumptions C44_elsewhere.

(** slab 0 is cached, slab 2 holds quarantined slots, slab 1 was never used *)
Example C44_case : history g1 (own_store g1) o0 tC sC /\ is_init sC = true /\ exists_class g1 0 36 /\
  (in_slab_no g1 sC 0 36 0 25846276096 /\ accessible sC 25846276096 /\ cached (st_cls sC 0 36) 0) /\
  (in_slab_no g1 sC 0 36 2 25846407168 /\ accessible sC 25846407168 /\ holds (st_cls sC 0 36) 2) /\
  (in_slab_no g1 sC 0 36 1 25846341632 /\ inaccessible sC 25846341632 /\ content sC 25846341632 = 0).
Proof.
  destruct slab2C as (B2 & B1 & B0).
  split; [exact histC|]. split; [exact initC|]. split; [unfold exists_class; cbn; lia|].
  split; [split; [exact B0|split; [lkC (LRW 25846276096)|exact (empty_cached _ emptyC)]]|].
  split; [split; [exact B2|split; [lkC (LRW 25846407168)|exact holdsC]]|].
  split; [exact B1|]. split; [lkC (LNone 25846341632)|lkC (LByte 25846341632 0)].
Qed.
