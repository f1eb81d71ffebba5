(** C38: no API function can deadlock with another; locks, fork handlers and the child. *)
From Coq Require Import String ZArith List Bool Lia.
From Verif Require Import M_Base M_Config M_SizeClass M_Flow S_Flow P_Flow2 P_Flow3 P_Flow4.
Import ListNotations.
Open Scope Z_scope.

(** outside the handlers at most one lock is held at a time, protected data is used under its
    lock only, and no lock is held at the return *)
Theorem C38_one_lock g n f t r : In (n, f) (exported g) -> path f t r ->
  lock_use t (match r with Aborted => false | _ => true end).
Proof. exact (fun H => l_claim g f t r (l_exported g n f None H)). Qed.
Print Assumptions C38_one_lock.
Theorem C38_one_lock_info g t r : path (f_malloc_info g (io_alloc g)) t r ->
  lock_use t (match r with Aborted => false | _ => true end).
Proof. exact (l_claim g _ t r (l_malloc_info g None)). Qed.
Print Assumptions C38_one_lock_info.
Theorem C38_one_lock_bin_info t r : path f_bin_info t r ->
  lock_use t (match r with Aborted => false | _ => true end).
Proof. exact (l_claim (mkConfig true true true true 1 1 false true 1 2 2 2 33554432 4 1048576 1 true 1048576) _ t r (l_bin_info _ None)). Qed.
Print Assumptions C38_one_lock_bin_info.

(** the handlers take all locks in one fixed order and release all of them *)
Theorem C38_handlers g t1 t2 : 0 <= N_ARENA g -> path (full_lock g) t1 Next -> path (full_unlock g) t2 Next ->
  (forall l, In l (held t1) <-> handler_locks g l) /\
  (forall u l v, t1 = u ++ ILock l :: v -> forall m, In m (held u) -> place g m < place g l) /\
  held (t1 ++ t2) = [].
Proof. exact (handlers g t1 t2). Qed.
Print Assumptions C38_handlers.

(** whatever the threads call and however they are scheduled, as long as some thread has
    not finished, some unfinished thread does not wait for a lock *)
Theorem C38_no_deadlock g m f s : 0 <= N_ARENA g ->
  (forall i, life g (f i)) -> (forall i, (m <= i)%nat -> f i = []) -> runs_to (start f) s ->
  forall i, working s i -> exists j, working s j /\ ~ waiting s j.
Proof. exact (fun Hn => no_deadlock g Hn m f s). Qed.
Print Assumptions C38_no_deadlock.

(** data protected by a lock is used by the holder of the lock only, in every schedule *)
Theorem C38_exclusive g f s i l t : 0 <= N_ARENA g ->
  (forall i, life g (f i)) -> runs_to (start f) s ->
  todo s i = ITouch l :: t \/ todo s i = IUnlock l :: t -> holder s l = Some i.
Proof. exact (fun Hn => pool_touch g Hn f s i l t). Qed.
Print Assumptions C38_exclusive.

(** after fork the handler of the child frees every lock of the size classes and of the
    region allocator and reseeds every generator, whatever state the child inherits *)
Theorem C38_child g s t : 0 <= N_ARENA g -> path (post_fork_child g) t Next ->
  (forall l, handler_locks g l -> In (ISeed l) t) /\
  exists s', runs_to (child s t) s' /\ todo s' 0%nat = [] /\ ended s' = false /\
    forall l, handler_locks g l -> holder s' l = None.
Proof. exact (child_ok g s t). Qed.
Print Assumptions C38_child.

(** not so for the lock of the initialization: a thread that forks while another thread is
    inside the very first call leaves the child stuck in its next malloc *)
Theorem C38_child_init_lock_refuted g :
  exists f s t u, (forall i, life g (f i)) /\ runs_to (start f) s /\ todo s 0%nat = [IForkTest false] /\
    path (f_malloc g) t Next /\ runs_to (child s t) u /\ waiting u 0%nat /\ forall v, ~ pstep u v.
Proof. exact (fork_stuck g). Qed.
Print Assumptions C38_child_init_lock_refuted.

(** the hypotheses are met: malloc has paths, the handlers have paths, and there are
    processes in which a thread really waits *)
Example C38_malloc_path g : In ("malloc"%string, f_malloc g) (exported g) /\ path (f_malloc g) (malloc_trace 0 3) Next.
Proof. split; [left; reflexivity|exact (malloc_path g 0 3)]. Qed.
Example C38_handler_paths g : (exists t1, path (full_lock g) t1 Next) /\ (exists t2, path (full_unlock g) t2 Next) /\
  exists t3, path (post_fork_child g) t3 Next.
Proof. exact (conj (full_lock_path g) (conj (full_unlock_path g) (post_fork_path g))). Qed.
Example C38_somebody_waits g : exists f s,
  (forall i, life g (f i)) /\ (forall i, (2 <= i)%nat -> f i = []) /\ runs_to (start f) s /\ waiting s 0%nat.
Proof. exact (waits g). Qed.
