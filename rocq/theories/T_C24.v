(** C24: freed large blocks stay out of reach while they wait in the quarantine. *)
From Coq Require Import String ZArith List Bool Lia.
From Verif Require Import M_Base M_Config M_SizeClass M_OS M_Slab M_Region M_Api M_Hist S_SizeClass S_Heap S_Class S_Quar
  P_Api3 P_Demo P_Refute P_RQuar P_Demo6.
Import ListNotations.
Open Scope Z_scope.

(** A large block below the skip threshold is freed.  As long as fewer calls than the
    quarantine holds give large address space back, the whole range, with the guards that
    surrounded the live block, stays mapped and every access to it faults.  The kernel must
    not have answered "out of memory" (see the refutation below). *)
Theorem C24_freed_large_blocks_stay_inaccessible_partial : forall (g : config) (W : store_rule) (o : os) (t : trace) (s : state) (p : Z) (b : op) (n tid : Z) (c : op) (a : ans) (s1 : state) (k : nat) (t2 : trace) (s2 : state),
  usable_config g = true -> history g W o t s ->
  In (p, b) (live t) -> ~ in_small_area s p -> usable_size g s p n -> n < REGION_QUARANTINE_SKIP_THRESHOLD g ->
  frees c p -> calls g W t s tid c a s1 ->
  at_most g W (mkEv tid c a :: t) s1 k t2 s2 -> Z.of_nat k < quarantine_length g ->
  never_refused s2 ->
  exists gd, 4096 <= gd /\ guarded s (p - gd) p /\ guarded s (page_up (p + n)) (page_up (p + n) + gd) /\
    guarded s2 (p - gd) (page_up (p + n) + gd).
Proof. exact C24_l. Qed.
Print Assumptions C24_freed_large_blocks_stay_inaccessible_partial.

(** The kernel may answer anything: the range stays reserved, it is mapped and no live block touches it *)
Theorem C24_freed_large_blocks_stay_reserved : forall (g : config) (W : store_rule) (o : os) (t : trace) (s : state) (p : Z) (b : op) (n tid : Z) (c : op) (a : ans) (s1 : state) (k : nat) (t2 : trace) (s2 : state),
  usable_config g = true -> history g W o t s ->
  In (p, b) (live t) -> ~ in_small_area s p -> usable_size g s p n -> n < REGION_QUARANTINE_SKIP_THRESHOLD g ->
  frees c p -> calls g W t s tid c a s1 ->
  at_most g W (mkEv tid c a :: t) s1 k t2 s2 -> Z.of_nat k < quarantine_length g ->
  exists gd, 4096 <= gd /\ guarded s (p - gd) p /\ guarded s (page_up (p + n)) (page_up (p + n) + gd) /\
    forall x, p - gd <= x < page_up (p + n) + gd ->
      mapped s2 x /\ forall q d m, In (q, d) (live t2) -> extent g s2 q d m -> ~ q <= x < q + m.
Proof. exact C24_reserved_l. Qed.
Print Assumptions C24_freed_large_blocks_stay_reserved.

(** Without the assumption on the kernel the property fails: when the kernel refuses the
    inaccessible mapping, free only empties the pages and they stay readable and writable. *)
Theorem C24_kernel_refuses_refuted : exists (g : config) (o : os) (t : trace) (s : state) (p : Z) (b : op) (n tid : Z) (s1 : state),
  usable_config g = true /\ history g (own_store g) o t s /\
  In (p, b) (live t) /\ ~ in_small_area s p /\ usable_size g s p n /\ n < REGION_QUARANTINE_SKIP_THRESHOLD g /\
  0 < quarantine_length g /\ calls g (own_store g) t s tid (OFree p) AUnit s1 /\ accessible s1 p.
Proof. exact C24_bad. Qed.
Print Assumptions C24_kernel_refuses_refuted.

Example C24_case :
  usable_config g0 = true /\ history g0 (own_store g0) o0 t8 s8 /\ In (42949701632, OMalloc 200000) (live t8) /\ ~ in_small_area s8 42949701632 /\ usable_size g0 s8 42949701632 229376 /\
  229376 < REGION_QUARANTINE_SKIP_THRESHOLD g0 /\ frees (OFree 42949701632) 42949701632 /\ calls g0 (own_store g0) t8 s8 0 (OFree 42949701632) AUnit s9 /\
  at_most g0 (own_store g0) t9 s9 2 t10 s10 /\ Z.of_nat 2 < quarantine_length g0 /\ never_refused s10 /\ accessible s8 42949701632.
Proof.
  split; [reflexivity|]. split; [exact demo8_history|]. split; [cbn; tauto|]. split.
  { pose proof (demo8_looks (LOther (fun s => negb ((st_start s <=? 42949701632) && (42949701632 <? st_end s)))) ltac:(in_list)) as E. cbn [looks] in E. apply negb_true_iff in E. unfold in_small_area. lia. }
  split; [exact (demo8_looks (LUsable 42949701632 229376) ltac:(in_list))|]. split; [reflexivity|]. split; [left; reflexivity|]. split; [exact demo9_free|]. split; [exact demo10_at_most|]. split; [reflexivity|].
  split; [exact (never_refusedb_ok _ (demo10_looks (LOther never_refusedb) ltac:(in_list)))|]. exact (demo8_looks (LRW 42949701632) ltac:(in_list)).
Qed.
