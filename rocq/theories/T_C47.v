(** C47: purged slabs are used again in randomized first-in first-out order. *)
From Coq Require Import String ZArith List Bool Lia.
From Verif Require Import M_Base M_Config M_SizeClass M_OS M_Slab M_Region M_Api M_Hist S_SizeClass S_Slab S_Heap S_Class
  P_Api3 P_Api4 P_Api5 P_Api6 P_Api7 P_Api8 P_Api9 P_Api10 P_Demo P_Demo2 P_Demo3.
Import ListNotations.
Open Scope Z_scope.

(** a slab that is emptied by free and not cached waits in the random array *)
Theorem C47_enters : forall (g : config) (W : store_rule) (o : os) (t : trace) (s : state) (tid : Z) (c : op) (s' : state) (a k i : Z),
  usable_config g = true -> history g W o t s -> is_init s = true -> exists_class g a k ->
  calls g W t s tid c AUnit s' -> (exists p, c = OFree p \/ exists n, c = OFreeSized p n) ->
  holds (st_cls s a k) i -> ~ holds (st_cls s' a k) i -> ~ cached (st_cls s' a k) i -> waiting (st_cls s' a k) i.
Proof. exact C47_enters_l. Qed.
Print Assumptions C47_enters.

(** a slab that waits in the random array and is in use later was displaced from the array by
    some call in between; every slab that was in the list of purged slabs at that time came into
    use after that call and no later than this slab *)
Theorem C47_reused_in_order : forall (g : config) (W : store_rule) (o : os) (t : trace) (s : state) (t' : trace) (s' : state) (a k i : Z),
  usable_config g = true -> history g W o t s -> is_init s = true -> continues g W t s t' s' -> exists_class g a k ->
  waiting (st_cls s a k) i -> holds (st_cls s' a k) i ->
  exists t1 s1 tid c an s2,
    continues g W t s t1 s1 /\ calls g W t1 s1 tid c an s2 /\ continues g W (mkEv tid c an :: t1) s2 t' s' /\
    waiting (st_cls s1 a k) i /\ ~ waiting (st_cls s2 a k) i /\
    forall l j, purged_slabs (st_cls s1 a k) l -> In j l ->
      exists t3 s3, continues g W (mkEv tid c an :: t1) s2 t3 s3 /\ continues g W t3 s3 t' s' /\ holds (st_cls s3 a k) j.
Proof. exact C47_l. Qed.
Print Assumptions C47_reused_in_order.

(** a slab in the list of purged slabs is not in use before the slabs in front of it were *)
Theorem C47_order : forall (g : config) (W : store_rule) (o : os) (t : trace) (s : state) (t' : trace) (s' : state) (a k : Z) (l1 : list Z) (i : Z) (l2 : list Z),
  usable_config g = true -> history g W o t s -> is_init s = true -> continues g W t s t' s' -> exists_class g a k ->
  purged_slabs (st_cls s a k) (l1 ++ i :: l2) -> holds (st_cls s' a k) i ->
  forall j, In j l1 -> exists t1 s1, continues g W t s t1 s1 /\ continues g W t1 s1 t' s' /\ holds (st_cls s1 a k) j.
Proof. exact C47_order_l. Qed.
Print Assumptions C47_order.

(** one call: slabs leave the list only at its front, at most one and because it is used; they
    join it only at its end; and a slab leaves the array only to join the list *)
Theorem C47_call : forall (g : config) (W : store_rule) (o : os) (t : trace) (s : state) (tid : Z) (c : op) (an : ans) (s' : state) (a k : Z) (l l' : list Z),
  usable_config g = true -> history g W o t s -> is_init s = true -> calls g W t s tid c an s' -> exists_class g a k ->
  purged_slabs (st_cls s a k) l -> purged_slabs (st_cls s' a k) l' ->
  exists used new, l ++ new = used ++ l' /\ zlen used <= 1 /\ (forall i, In i used -> holds (st_cls s' a k) i) /\
    (forall i, waiting (st_cls s a k) i -> waiting (st_cls s' a k) i \/ In i new).
Proof. exact C47_call_l. Qed.
Print Assumptions C47_call.

(** slabs in use and cached slabs are neither in the array nor in the list *)
Theorem C47_idle : forall (g : config) (W : store_rule) (o : os) (t : trace) (s : state) (a k i : Z),
  usable_config g = true -> history g W o t s -> is_init s = true -> exists_class g a k ->
  holds (st_cls s a k) i \/ cached (st_cls s a k) i ->
  ~ waiting (st_cls s a k) i /\ forall l, purged_slabs (st_cls s a k) l -> ~ In i l.
Proof. exact purged_idle. Qed.
Print Assumptions C47_idle.

(** slab 6 is emptied and enters the array, which displaces slab 2 into the list *)
Example C47_enters_case : history g1 (own_store g1) o0 tX sX /\ is_init sX = true /\ exists_class g1 0 36 /\
  calls g1 (own_store g1) tX sX 0 (OFree 25846816768) AUnit sU /\ holds (st_cls sX 0 36) 6 /\ ~ holds (st_cls sU 0 36) 6 /\ ~ cached (st_cls sU 0 36) 6.
Proof.
  split; [exact histX|]. split; [lkX (LOther is_init)|]. split; [unfold exists_class; cbn; lia|]. split; [exact callU|].
  split; [exact (held_ok 6 sX ltac:(lkX (LOther (held 6))))|]. split; [exact (vacant_ok 6 sU ltac:(lkU (LOther (vacant 6))))|exact (empty4_ok sU ltac:(lkU (LOther empty4)))].
Qed.
(** it is in use again nine calls later *)
Example C47_reused_case : history g1 (own_store g1) o0 tU sU /\ is_init sU = true /\ continues g1 (own_store g1) tU sU tV sV /\
  waiting (st_cls sU 0 36) 6 /\ purged_slabs (st_cls sU 0 36) [2] /\ holds (st_cls sV 0 36) 6.
Proof.
  split; [exact histU|]. split; [lkU (LOther is_init)|]. split; [exact contUV|]. split; [exact (waits6_ok sU ltac:(lkU (LOther waits6)))|].
  split; [exact (list2_ok sU ltac:(lkU (LOther list2)))|exact (held_ok 6 sV ltac:(lkV (LOther (held 6))))].
Qed.
Example C47_order_case : history g1 (own_store g1) o0 tM sM /\ is_init sM = true /\ continues g1 (own_store g1) tM sM tV sV /\
  purged_slabs (st_cls sM 0 36) ([2] ++ 6 :: []) /\ holds (st_cls sV 0 36) 6.
Proof.
  split; [exact histM|]. split; [lkM (LOther is_init)|]. split; [exact contMV|]. split; [exact (list26_ok sM ltac:(lkM (LOther list26)))|exact (held_ok 6 sV ltac:(lkV (LOther (held 6))))].
Qed.
