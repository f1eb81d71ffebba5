(** C22: size class and arena isolation. *)
From Coq Require Import String ZArith List Bool Lia.
From Verif Require Import M_Base M_Config M_SizeClass M_OS M_Slab M_Region M_Api M_Hist S_SizeClass S_Heap S_Class S_Arena
  P_Api3 P_Api4 P_Api5 P_Api6 P_Api7 P_Demo P_Refute P_Arena.
Import ListNotations.
Open Scope Z_scope.

(** an address of the area of small blocks belongs, at all times, only to blocks of one size; an address outside never to a small block *)
Theorem C22_one_size_per_address : forall (g : config) (W : store_rule) (o : os) (t : trace) (s : state) (t' : trace) (s' : state) (p : Z) (c : op) (n q : Z) (d : op) (m x : Z),
  usable_config g = true -> history g W o t s -> continues g W t s t' s' ->
  In (p, c) (live t) -> In (q, d) (live t') -> usable_size g s p n -> usable_size g s' q m ->
  p <= x < p + n -> q <= x < q + m ->
  (st_start s <= x < st_end s /\ n = m) \/
  (~ st_start s <= x < st_end s /\ ~ st_start s <= p < st_end s /\ ~ st_start s' <= q < st_end s').
Proof. exact C22_size_l. Qed.
Print Assumptions C22_one_size_per_address.

(** a block lies in the area of small blocks entirely or not at all, and never in the allocator state *)
Theorem C22_areas_apart : forall (g : config) (W : store_rule) (o : os) (t : trace) (s : state) (p : Z) (c : op) (n x : Z),
  usable_config g = true -> history g W o t s ->
  In (p, c) (live t) -> extent g s p c n -> p <= x < p + n ->
  ~ st_base s <= x < st_base s + sizeof_allocator_state g /\ (st_start s <= x < st_end s <-> st_start s <= p < st_end s).
Proof. exact C22_large_l. Qed.
Print Assumptions C22_areas_apart.

(** a small block lies entirely in the part of one size class of one arena *)
Theorem C22_one_part : forall (g : config) (W : store_rule) (o : os) (t : trace) (s : state) (p : Z) (c : op) (n x : Z),
  usable_config g = true -> history g W o t s -> In (p, c) (live t) -> in_small_area s p -> usable_size g s p n -> p <= x < p + n ->
  part_at g s x = part_at g s p /\ arena_at g s x = arena_at g s p.
Proof. exact C22_part_l. Qed.
Print Assumptions C22_one_part.

(** every small block ever handed out to a thread lies in the thread's arena *)
Theorem C22_own_arena : forall (g : config) (W : store_rule) (o : os) (t : trace) (s : state) (e : event) (p : Z),
  usable_config g = true -> history g W o t s -> In e t -> handed_out e = Some p -> in_small_area s p ->
  0 <= thread_arena g s (e_tid e) < N_ARENA g /\ arena_at g s p = thread_arena g s (e_tid e).
Proof. exact C22_own_arena_l. Qed.
Print Assumptions C22_own_arena.

(** an address of the area of small blocks belongs, at all times, only to blocks that were
    handed out to threads of one arena *)
Theorem C22_one_arena_per_address : forall (g : config) (W : store_rule) (o : os) (t : trace) (s : state) (t' : trace) (s' : state) (p : Z) (c : op) (n q : Z) (d : op) (m x : Z) (e f : event),
  usable_config g = true -> history g W o t s -> continues g W t s t' s' ->
  In (p, c) (live t) -> In (q, d) (live t') -> usable_size g s p n -> usable_size g s' q m ->
  p <= x < p + n -> q <= x < q + m -> in_small_area s x ->
  In e t -> handed_out e = Some p -> In f t' -> handed_out f = Some q ->
  thread_arena g s' (e_tid e) = thread_arena g s' (e_tid f).
Proof. exact C22_arena_l. Qed.
Print Assumptions C22_one_arena_per_address.

(** three threads with four arenas *)
Example C22_arenas_case : history g4 (own_store g4) o0 t_arenas s_arenas /\ usable_size g4 s_arenas 25931509648 40 /\ in_small_area s_arenas 25931509648 /\
  (thread_arena g4 s_arenas 7 = 0 /\ thread_arena g4 s_arenas 8 = 1 /\ thread_arena g4 s_arenas 9 = 2) /\
  In (mkEv 9 (OMalloc 30) (APtr 25931509648)) t_arenas /\ arena_at g4 s_arenas 25931509648 = 2 /\ arena_at g4 s_arenas 25862793072 = 1.
Proof.
  pose proof (arenas_looks _ (or_introl eq_refl)) as L1. pose proof (arenas_looks _ (or_intror (or_introl eq_refl))) as L2.
  pose proof (arenas_looks _ (or_intror (or_intror (or_introl eq_refl)))) as L3. pose proof (arenas_looks _ (or_intror (or_intror (or_intror (or_introl eq_refl))))) as L4.
  cbn [looks forallb fst snd] in *. split; [exact arenas_history|]. split; [exact L1|]. unfold in_small_area. split; [lia|]. split; [lia|]. split; [left; reflexivity|]. lia.
Qed.
Example C22_case :
  history g0 (own_store g0) o0 t1 s1 /\ continues g0 (own_store g0) t1 s1 t2 s2 /\ In (25784834800, OMalloc 100) (live t1) /\ In (25784834800, OMalloc 100) (live t2) /\
  In (64424538112, OMalloc 200000) (live t1) /\ st_start s1 <= 25784834800 < st_end s1 /\ ~ st_start s1 <= 64424538112 < st_end s1.
Proof.
  pose proof (demo1_looks (LOther (fun s => st_start s =? 25769803776)) ltac:(in_list)) as E1. pose proof (demo1_looks (LOther (fun s => st_end s =? 25847398400)) ltac:(in_list)) as E2. cbn [looks] in E1, E2.
  split; [exact demo1_history|]. split; [exact demo_continues|]. split; [cbn; tauto|]. split; [cbn; tauto|]. split; [cbn; tauto|]. lia.
Qed.
