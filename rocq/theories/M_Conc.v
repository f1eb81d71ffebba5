(** Executions with any number of threads that call the allocator at the same time.
    A call is the program [op_run g tid c] of M_Hist.v.  Each of its actions is one
    critical section of a lock, one system call or one access to memory (M_Api.v,
    M_Region.v, M_Slab.v say which), and the actions of different threads interleave in
    any order.

    Simplifications.  The lock discipline itself (that the code between taking and
    releasing a lock is not interleaved with other code under the same lock) is the
    subject of M_Flow.v and T_C38.v.  Memory accesses are sequentially consistent.  The
    body of init_slow_path is one action: the other threads cannot see its parts, because
    slab_region_end is written last (h_malloc.c:1286) and every thread tests it first.
    errno belongs to a thread in C and is one variable here, so nothing is said about errno
    of interleaved calls. *)
From Coq Require Import String ZArith List Bool.
From Verif Require Import M_Base M_Config M_SizeClass M_Libdivide M_OS M_Random M_Slab M_Region M_Api M_Hist.
Import ListNotations.
Open Scope Z_scope.

(** the process: its state, and for each thread the call it is in and what is left of it *)
Record conc : Type := mkConc { co_st : state; co_run : Z -> option (op * prog state ans) }.
(** what the program does and sees: a call, a return, a store that it executes itself *)
Inductive cev : Type :=
| Began (tid : Z) (c : op)
| Ended (tid : Z) (c : op) (a : ans)
| Stored (tid x v : Z).
Definition begin (g : config) (tid : Z) (c : op) (x : conc) : conc :=
  mkConc (co_st x) (fupd (co_run x) tid (Some (c, op_run g tid c))).
(** one step of one thread *)
Inductive cstep (g : config) : conc -> list cev -> conc -> Prop :=
| step_call x tid c : co_run x tid = None -> cstep g x [Began tid c] (begin g tid c x)
| step_act x tid c B (m : M state B) k b s' : co_run x tid = Some (c, Act m k) -> m (co_st x) = Ok (b, s') ->
    cstep g x [] (mkConc s' (fupd (co_run x) tid (Some (c, k b))))
| step_return x tid c a : co_run x tid = Some (c, Ret a) -> cstep g x [Ended tid c a] (mkConc (co_st x) (fupd (co_run x) tid None))
| step_store x tid a v s' : co_run x tid = None -> store g a v (co_st x) = Ok (tt, s') ->
    cstep g x [Stored tid a v] (mkConc s' (co_run x)).
(** the next step of thread [tid] ends the process *)
Definition crashes (g : config) (x : conc) (tid : Z) (f : fault) : Prop :=
  exists c B (m : M state B) k, co_run x tid = Some (c, Act m k) /\ m (co_st x) = Fail f.
Definition first (g : config) (o : os) : conc := mkConc (boot g o) (fun _ => None).
(** everything that can happen, newest event first *)
Inductive schedule (g : config) (x0 : conc) : list cev -> conc -> Prop :=
| schedule_start : schedule g x0 [] x0
| schedule_step t x e x' : schedule g x0 t x -> cstep g x e x' -> schedule g x0 (e ++ t) x'.
