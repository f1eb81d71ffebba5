(** C29: malloc_trim. *)
From Coq Require Import String ZArith List Bool Lia.
From Verif Require Import M_Base M_Config M_SizeClass M_OS M_Slab M_Region M_Api M_Hist S_SizeClass S_Slab S_Heap S_Class
  P_Api3 P_Api4 P_Api5 P_Api6 P_Api7 P_Api8 P_Demo P_Demo2.
Import ListNotations.
Open Scope Z_scope.

(** malloc_trim returns 1 exactly when a cached empty slab was given back *)
Theorem C29_result : forall (g : config) (W : store_rule) (o : os) (t : trace) (s : state) (tid : Z) (b : bool) (s' : state),
  usable_config g = true -> history g W o t s -> calls g W t s tid OTrim (ABool b) s' -> is_init s = true ->
  (b = true <-> exists a k i, exists_class g a k /\ k <> 0 /\ cached (st_cls s a k) i /\ ~ cached (st_cls s' a k) i).
Proof. exact C29_cached_l. Qed.
Print Assumptions C29_result.

(** the same in terms of memory: exactly when some byte became inaccessible *)
Theorem C29_pages : forall (g : config) (W : store_rule) (o : os) (t : trace) (s : state) (tid : Z) (b : bool) (s' : state),
  usable_config g = true -> history g W o t s -> calls g W t s tid OTrim (ABool b) s' -> is_init s = true ->
  (b = true <-> exists x, in_small_area s x /\ accessible s x /\ inaccessible s' x).
Proof. exact C29_pages_l. Qed.
Print Assumptions C29_pages.

(** before the first allocation there is nothing to give back *)
Theorem C29_early : forall (g : config) (W : store_rule) (o : os) (t : trace) (s : state) (tid : Z) (b : bool) (s' : state),
  usable_config g = true -> history g W o t s -> calls g W t s tid OTrim (ABool b) s' -> is_init s = false -> b = false.
Proof. exact C29_early_l. Qed.
Print Assumptions C29_early.

(** if the kernel refuses nothing, no empty slab is cached afterwards (slots of size 0 have no
    memory, their slabs are never given back) *)
Theorem C29_nothing_cached : forall (g : config) (W : store_rule) (o : os) (t : trace) (s : state) (tid : Z) (b : bool) (s' : state) (a k i : Z),
  usable_config g = true -> history g W o t s -> calls g W t s tid OTrim (ABool b) s' -> is_init s = true ->
  ~ kernel_refused s s' -> exists_class g a k -> k <> 0 -> ~ cached (st_cls s' a k) i.
Proof. exact C29_none_l. Qed.
Print Assumptions C29_nothing_cached.

(** contents, sizes and liveness of all live blocks are unchanged, and the history goes on *)
Theorem C29_blocks_unchanged : forall (g : config) (W : store_rule) (o : os) (t : trace) (s : state) (tid : Z) (b : bool) (s' : state),
  usable_config g = true -> history g W o t s -> calls g W t s tid OTrim (ABool b) s' ->
  undisturbed g (live t) s s' /\ live (mkEv tid OTrim (ABool b) :: t) = live t /\ history g W o (mkEv tid OTrim (ABool b) :: t) s'.
Proof. exact C29_frame_l. Qed.
Print Assumptions C29_blocks_unchanged.

Example C29_case : history g1 (own_store g1) o0 tC sC /\ is_init sC = true /\
  calls g1 (own_store g1) tC sC 0 OTrim (ABool true) sT /\
  cached (st_cls sC 0 36) 0 /\ ~ cached (st_cls sT 0 36) 0 /\ accessible sC 25846276096 /\ inaccessible sT 25846276096.
Proof.
  split; [exact histC|]. split; [exact initC|]. split; [exact callT|]. split; [exact (empty_cached _ emptyC)|].
  split; [exact (empty_none _ _ emptyT)|].
  split; [lkC (LRW 25846276096)|lkT (LNone 25846276096)].
Qed.
