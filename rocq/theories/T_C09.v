(** C09: a freed small block stays in quarantine. *)
From Coq Require Import String ZArith List Bool Lia.
From Verif Require Import M_Base M_Config M_SizeClass M_OS M_Slab M_Region M_Api M_Hist S_SizeClass S_Slab S_Heap S_Class
  P_Api3 P_Api4 P_Api5 P_Api6 P_Api7 P_Api8 P_Demo P_Demo2.
Import ListNotations.
Open Scope Z_scope.

(** the small block [p], of usable size [n], is freed by a call; when a later call hands out
    [p] again, at least [queue_length] (plus 1 for the random stage) further frees in the same
    arena and size class have happened in between *)
Theorem C09_quarantine : forall (g : config) (W : store_rule) (o : os) (t : trace) (s : state) (tid : Z) (c : op) (a : ans) (s1 : state)
    (p : Z) (d : op) (n : Z) (t2 : trace) (s2 : state) (tid2 : Z) (c2 : op) (a2 : ans) (s3 : state),
  usable_config g = true -> history g W o t s ->
  In (p, d) (live t) -> in_small_area s p -> usable_size g s p n ->
  calls g W t s tid c a s1 -> freed_by (mkEv tid c a) = Some p ->
  continues g W (mkEv tid c a :: t) s1 t2 s2 ->
  calls g W t2 s2 tid2 c2 a2 s3 -> handed_out (mkEv tid2 c2 a2) = Some p ->
  (if 0 <? SLAB_QUARANTINE_RANDOM_LENGTH g then 1 else 0) + queue_length g (slot_bytes g n)
    <= Z.of_nat (frees_like g s p (since (mkEv tid c a :: t) t2)).
Proof. exact C09_l. Qed.
Print Assumptions C09_quarantine.

(** a block is freed, two more blocks of the class are freed, and the block is handed out
    again: the bound is reached *)
Example C09_case : history g1 (own_store g1) o0 tA sA /\
  In (25846276096, OMalloc 16000) (live tA) /\ in_small_area sA 25846276096 /\ usable_size g1 sA 25846276096 16376 /\
  calls g1 (own_store g1) tA sA 0 (OFree 25846276096) AUnit sB /\
  continues g1 (own_store g1) tB sB tD sD /\
  (exists s3, calls g1 (own_store g1) tD sD 1 (OMalloc 16000) (APtr 25846276096) s3) /\
  handed_out (mkEv 1 (OMalloc 16000) (APtr 25846276096)) = Some 25846276096 /\
  (1 + queue_length g1 (slot_bytes g1 16376) = 2).
Proof.
  split; [exact histA|]. split; [cbn; tauto|]. split; [exact areaA|]. split; [lkA (LUsable 25846276096 16376)|]. split; [exact callB|]. split; [exact contBD|].
  split; [lkD (LCall 1 (OMalloc 16000) (APtr 25846276096))|]. split; reflexivity.
Qed.
