(** C39: first use by many threads, the index of a thread, calls before initialization. *)
From Coq Require Import String ZArith List Bool Lia.
From Verif Require Import M_Base M_Config M_SizeClass M_OS M_Slab M_Region M_Api M_Hist M_Conc S_Heap M_Flow S_Flow P_Flow3 P_Conc0 P_Demo.
Import ListNotations.
Open Scope Z_scope.

(** However the threads race, initialization is published at most once: [inits] counts the
    publications. *)
Theorem C39_once g f s : 0 <= N_ARENA g -> (forall i, life g (f i)) -> runs_to (start f) s ->
  inits s = if inited s then 1%nat else 0%nat.
Proof. exact (fun Hn => pool_once g Hn f s). Qed.
Print Assumptions C39_once.
(** A thread that sets up the allocator's data does so before the publication, is the only
    one inside the initialization, and nobody holds a lock whose data is being set up. *)
Theorem C39_alone g f s i l t : 0 <= N_ARENA g -> (forall i, life g (f i)) -> runs_to (start f) s ->
  todo s i = ISetup l :: t \/ todo s i = IMutexInit l :: t ->
  inited s = false /\ holder s LInit = Some i /\ forall m, m <> LInit -> holder s m = None.
Proof. exact (fun Hn => pool_setup g Hn f s i l t). Qed.
Print Assumptions C39_alone.
(** A thread works on the allocator's data after the publication only. *)
Theorem C39_ready g f s i l t : 0 <= N_ARENA g -> (forall i, life g (f i)) -> runs_to (start f) s ->
  todo s i = ITouch l :: t -> l <> LInit -> inited s = true.
Proof. exact (pool_ready g f s i l t). Qed.
Print Assumptions C39_ready.
(** What the initialization obtained stays: in every interleaving of any calls by any
    threads, the slab region and the allocator state never move again. *)
Theorem C39_fixed g o t1 x1 t2 x2 : schedule g (first g o) t1 x1 -> schedule g x1 t2 x2 -> is_init (co_st x1) = true ->
  st_start (co_st x2) = st_start (co_st x1) /\ st_end (co_st x2) = st_end (co_st x1) /\ st_base (co_st x2) = st_base (co_st x1).
Proof. exact (sched_fixed g o t1 x1 t2 x2). Qed.
Print Assumptions C39_fixed.
(** The index of a thread is in range (N_ARENA: none yet), and once it has one it keeps
    it, in every interleaving. *)
Theorem C39_index g o t1 x1 t2 x2 tid : 1 <= N_ARENA g -> schedule g (first g o) t1 x1 -> schedule g x1 t2 x2 ->
  0 <= st_arena (co_st x1) tid <= N_ARENA g /\
  (st_arena (co_st x1) tid < N_ARENA g -> st_arena (co_st x2) tid = st_arena (co_st x1) tid).
Proof. exact (sched_arena g o t1 x1 t2 x2 tid). Qed.
Print Assumptions C39_index.
(** The index a call works with is below N_ARENA and is the thread's own.  (That the small
    blocks of a thread lie in the arena of its index is C22_own_arena of T_C22.v.) *)
Theorem C39_index_used g tid s a s' : 1 <= N_ARENA g -> 0 <= st_arena s tid -> run (init g tid) s = Ok (a, s') ->
  0 <= a < N_ARENA g /\ (1 < N_ARENA g -> st_arena s' tid = a /\ (st_arena s tid < N_ARENA g -> a = st_arena s tid)).
Proof. exact (init_result g tid s a s'). Qed.
Print Assumptions C39_index_used.
(** free, free_sized, malloc_usable_size and realloc of a pointer that is not NULL, made
    before initialization, end the process (realloc: unless the size is absurd, then it
    fails without looking at the pointer). *)
Theorem C39_before g o t x tid c : schedule g (first g o) t x -> is_init (co_st x) = false ->
  match c with
  | OFree p | OFreeSized p _ | OUsableSize p => 0 < p
  | ORealloc p n => 0 < p /\ 0 <= n <= 2 ^ 63
  | _ => False
  end ->
  run (op_run g tid c) (co_st x) = Fail (Fatal "invalid uninitialized allocator usage").
Proof. exact (before_init g o t x tid c). Qed.
Print Assumptions C39_before.

(** The hypotheses are met: there are schedules in which the allocator is initialized, and
    at the start it is not. *)
Example C39_reached : exists t x, schedule g0 (first g0 o0) t x /\ is_init (co_st x) = true.
Proof.
  destruct (history_sched _ _ _ _ _ demo1_history) as (t & x & S & E & _). exists t, x. split; [exact S|]. rewrite E. look1 (LOther is_init).
Qed.
Example C39_early : schedule g0 (first g0 o0) [] (first g0 o0) /\ is_init (co_st (first g0 o0)) = false.
Proof. split; [apply schedule_start|reflexivity]. Qed.
(** two threads draw different indices *)
Example C39_indices : let g := mkConfig true true true true 1 1 false true 1 2 2 2 33554432 4 1048576 4 true 1048576 in
  match pick_arena g 7 (boot g o0) with
  | Ok (r1, s1) => match pick_arena g 9 s1 with
                   | Ok (r2, s2) => match pick_arena g 7 s2 with
                                    | Ok (r3, _) => r1 = (0, false) /\ r2 = (1, false) /\ r3 = (0, true)
                                    | Fail _ => False end
                   | Fail _ => False end
  | Fail _ => False end.
Proof. vm_compute. auto. Qed.
