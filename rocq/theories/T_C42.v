(** C42: valloc and pvalloc. *)
From Coq Require Import String ZArith List Bool Lia.
From Verif Require Import M_Base M_Config M_SizeClass M_OS M_Slab M_Region M_Api M_Hist S_SizeClass S_Heap
  P_Api3 P_Api4 P_Api5 P_Api6 P_Api7 P_Demo P_Refute.
Import ListNotations.
Open Scope Z_scope.

(** pvalloc: page aligned, at least n rounded up to a page; ENOMEM when rounding overflows or n = 0 *)
Theorem C42_pvalloc : forall (g : config) (W : store_rule) (o : os) (t : trace) (s : state) (tid n : Z) (a : ans) (s' : state),
  usable_config g = true -> history g W o t s ->
  calls g W t s tid (OPvalloc n) a s' ->
  match a with
  | ANull => errno (st_os s') = ENOMEM
  | APtr p => 0 < n <= 2 ^ 64 - 4096 /\ p mod 4096 = 0 /\ (forall x, p <= x < p + page_up n -> accessible s' x) /\
              (forall m, usable_size g s' p m -> page_up n <= m)
  | _ => False
  end /\ (n = 0 \/ 2 ^ 64 - 4096 < n -> a = ANull).
Proof. exact C42_pvalloc_l. Qed.
Print Assumptions C42_pvalloc.

(** valloc: page aligned, at least n bytes *)
Theorem C42_valloc : forall (g : config) (W : store_rule) (o : os) (t : trace) (s : state) (tid n p : Z) (s' : state),
  usable_config g = true -> history g W o t s ->
  calls g W t s tid (OValloc n) (APtr p) s' ->
  p mod 4096 = 0 /\ exists m, n <= m /\ (forall x, p <= x < p + m -> accessible s' x) /\ (forall m', usable_size g s' p m' -> m' = m).
Proof. exact C42_valloc_l. Qed.
Print Assumptions C42_valloc.

Example C42_case : history g0 (own_store g0) o0 t1 s1 /\
  (exists s', calls g0 (own_store g0) t1 s1 0 (OPvalloc 5000) (APtr 25841528832) s') /\ (exists s', calls g0 (own_store g0) t1 s1 0 (OPvalloc 0) ANull s') /\
  25841528832 mod 4096 = 0 /\ page_up 5000 = 8192.
Proof. split; [exact demo1_history|]. split; [look1 (LCall 0 (OPvalloc 5000) (APtr 25841528832))|]. split; [look1 (LCall 0 (OPvalloc 0) ANull)|]. split; reflexivity. Qed.
