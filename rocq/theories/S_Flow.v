(** What C38 and C43 are about: accessibility of the sealed memory along a sequence of
    instructions, the locks held along it, and waiting. *)
From Coq Require Import ZArith List Bool Lia.
From Verif Require Import M_Base M_Config M_SizeClass M_Flow.
Import ListNotations.
Open Scope Z_scope.

(** The sealed memory holds the region allocator and all size classes, including their
    locks and generators; init_lock is an ordinary variable. *)
Definition sealed_lock (l : lockid) : bool := match l with LInit => false | _ => true end.
Definition touches (i : instr) : bool :=
  match i with
  | ILock l | IUnlock l | IMutexInit l | ITouch l | ISetup l | ISeed l => sealed_lock l
  | _ => false
  end.
(** access of the executing thread after a sequence of instructions *)
Definition access1 (open : bool) (i : instr) : bool :=
  match i with IUnseal | IKeyAlloc => true | ISeal => false | _ => open end.
Definition access (open : bool) (t : list instr) : bool := fold_left access1 t open.
(** nothing sealed is touched without access, when the thread starts without access *)
Definition respects_seal (t : list instr) : Prop :=
  forall t1 i t2, t = t1 ++ i :: t2 -> touches i = true -> access false t1 = true.

(** the locks held after a sequence of instructions, when the thread starts with none *)
Definition held1 (h : list lockid) (i : instr) : list lockid :=
  match i with
  | ILock l => l :: h
  | IUnlock l => filter (fun m => negb (lock_eqb m l)) h
  | _ => h
  end.
Definition held (t : list instr) : list lockid := fold_left held1 t [].
(** a thread never holds two locks, works on protected data and unlocks only under the lock,
    and holds none when it returns *)
Definition lock_use (t : list instr) (finished : bool) : Prop :=
  (forall t1 t2, t = t1 ++ t2 -> (length (held t1) <= 1)%nat) /\
  (forall t1 l t2, t = t1 ++ ITouch l :: t2 -> In l (held t1)) /\
  (forall t1 l t2, t = t1 ++ IUnlock l :: t2 -> In l (held t1)) /\
  (finished = true -> held t = []).
(** all locks of the allocator that a process-wide handler takes *)
Definition handler_locks (g : config) (l : lockid) : Prop :=
  l = LRegion \/ exists a k, l = LClass a k /\ 0 <= a < N_ARENA g /\ 0 <= k < N_SIZE_CLASSES g.
(** the fixed order of the locks *)
Definition place (g : config) (l : lockid) : Z :=
  match l with LInit => 0 | LRegion => 1 | LClass a k => 2 + a * N_SIZE_CLASSES g + k end.

(** thread [i] waits for a lock somebody holds *)
Definition waiting (s : proc) (i : nat) : Prop :=
  exists l t j, todo s i = ILock l :: t /\ holder s l = Some j.
Definition working (s : proc) (i : nat) : Prop := todo s i <> [].
(** the child of fork has one thread, the one that forked, and a copy of the state; it then
    calls [t] *)
Definition child (s : proc) (t : list instr) : proc :=
  mkProc (holder s) (inited s) (registered s) false (fun i => match i with O => t | _ => [] end) (inits s).
