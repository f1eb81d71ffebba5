(** The C++ contract of operator new: what it may have done (newest first) when it ends in a
    given way.  [s0] is the heap before; the n-th handler query yields [hq n]. *)
From Coq Require Import ZArith List Bool.
From Verif Require Import M_Base M_Config M_Slab M_Region M_Api M_Hist M_New.
Import ListNotations.
Open Scope Z_scope.

(** one attempt to allocate: a call of malloc, or of aligned_alloc for an aligned type *)
Definition attempt (g : config) (tid size : Z) (align : option Z) (s : state) (r : option Z) (s' : state) : Prop :=
  run (op_run g tid (match align with None => OMalloc size | Some al => OAlignedAlloc al size end)) s =
  Ok (match r with Some p => APtr p | None => ANull end, s').

Section Contract.
Context (g : config) (tid size : Z) (align : option Z) (nothrow : bool) (hq : nat -> handler) (s0 : state).
(** [failures n s l]: every attempt so far failed; between two attempts the current handler
    ran and returned, which happened [n] times; [s] is the heap now *)
Inductive failures : nat -> state -> list nevent -> Prop :=
| failures_first s : attempt g tid size align s0 None s -> failures 0 s [EAlloc None]
| failures_retry n s l f s' : failures n s l -> hq n = Handler f HReturns -> attempt g tid size align (f s) None s' ->
    failures (S n) s' (EAlloc None :: EHandler HReturns :: l).
(** the reasons to give up: there is no handler, or it threw bad_alloc *)
Definition gave_up (s' : state) (l : list nevent) : Prop :=
  (exists n, failures n s' l /\ hq n = NoHandler) \/
  (exists n s l' f, failures n s l' /\ hq n = Handler f HBadAlloc /\ l = EHandler HBadAlloc :: l' /\ s' = f s).
Definition other_exception (s' : state) (l : list nevent) : Prop :=
  exists n s l' f, failures n s l' /\ hq n = Handler f HOtherException /\ l = EHandler HOtherException :: l' /\ s' = f s.
(** [rounds] bounds the number of handler calls; [NMore] means that all of them returned and
    all attempts failed *)
Definition conforms (rounds : nat) (r : nres) (s' : state) (l : list nevent) : Prop :=
  match r with
  | NPtr p => (attempt g tid size align s0 (Some p) s' /\ l = [EAlloc (Some p)]) \/
      (exists n s l' f, failures n s l' /\ hq n = Handler f HReturns /\ attempt g tid size align (f s) (Some p) s' /\ l = EAlloc (Some p) :: EHandler HReturns :: l')
  | NNull => nothrow = true /\ gave_up s' l
  | NBadAlloc => nothrow = false /\ gave_up s' l
  | NOther => nothrow = false /\ other_exception s' l
  | NTerminate => nothrow = true /\ other_exception s' l
  | NMore => failures rounds s' l
  end.
End Contract.
