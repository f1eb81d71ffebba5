(** Base of the model: machine integers, outcomes, the state/outcome monad,
    programs as sequences of atomic actions, list helpers.  No proofs here. *)
From Coq Require Import String ZArith List Bool.
Import ListNotations.
Open Scope Z_scope.

(** ** Machine integers.
    util.h:33-37 (u8/u16/u32/u64).  A C unsigned value of width w is a [Z]; each
    place where the C code can wrap applies one of these reductions. *)
Definition w8  (x : Z) : Z := x mod 2 ^ 8.
Definition w16 (x : Z) : Z := x mod 2 ^ 16.
Definition w32 (x : Z) : Z := x mod 2 ^ 32.
Definition w64 (x : Z) : Z := x mod 2 ^ 64.

(** SIZE_MAX / ~0UL *)
Definition SIZE_MAX : Z := 2 ^ 64 - 1.

(** util.h:41-43: ffz64(x) = __builtin_ffsll(~x): 1 + index of the lowest zero
    bit of x, 0 if there is none. *)
Fixpoint ffz_from (fuel : nat) (i : Z) (x : Z) : Z :=
  match fuel with
  | O => 0
  | S f => if Z.testbit x i then ffz_from f (i + 1) x else i + 1
  end.
Definition ffz64 (x : Z) : Z := ffz_from 64 0 x.

(** util.h:46-48: __builtin_clzll, argument must not be 0. *)
Definition clz64 (x : Z) : Z := 63 - Z.log2 x.

(** util.h:51-53 *)
Definition log2u64 (x : Z) : Z := 64 - clz64 x - 1.

(** util.h:55-58: align(size, align) = (size + mask) & ~mask, mask = align - 1,
    all in size_t. *)
Definition c_align (size al : Z) : Z :=
  let mask := w64 (al - 1) in
  Z.land (w64 (size + mask)) (SIZE_MAX - mask).

(** pages.h:10-13 *)
Definition PAGE_SHIFT : Z := 12.
Definition PAGE_SIZE : Z := 4096.

(** pages.h:19-21 *)
Definition page_align (size : Z) : Z := c_align size PAGE_SIZE.

(** errno values (Linux) *)
Definition EINTR : Z := 4.
Definition ENOMEM : Z := 12.
Definition EFAULT : Z := 14.
Definition EINVAL : Z := 22.
Definition ENOSYS : Z := 38.

(** ** Outcomes. *)
Inductive fault : Type :=
| Fatal (msg : string)   (* fatal_error(msg): message, then abort() *)
| Segv                   (* access to memory without permission *)
| UB (msg : string)      (* undefined behaviour in C *)
| Hang                   (* a loop that the C code would never leave *)
| Retry.                 (* fuel of a loop waiting for a random event ran out *)

Inductive res (A : Type) : Type :=
| Ok (a : A)
| Fail (f : fault).
Arguments Ok {A} a.
Arguments Fail {A} f.

(** State + outcome monad. *)
Definition M (S A : Type) : Type := S -> res (A * S).

Definition ret {S A} (a : A) : M S A := fun s => Ok (a, s).
Definition fail {S A} (f : fault) : M S A := fun _ => Fail f.
Definition bind {S A B} (m : M S A) (k : A -> M S B) : M S B :=
  fun s => match m s with
           | Ok (a, s') => k a s'
           | Fail f => Fail f
           end.
Definition get {S} : M S S := fun s => Ok (s, s).
Definition put {S} (s : S) : M S unit := fun _ => Ok (tt, s).
Definition modify {S} (f : S -> S) : M S unit := fun s => Ok (tt, f s).
Definition gets {S A} (f : S -> A) : M S A := fun s => Ok (f s, s).

Notation "'let!' x ':=' m 'in' k" := (bind m (fun x => k))
  (at level 200, x pattern, m at level 100, k at level 200,
   format "'[v' 'let!'  x  ':='  m  'in' '/' k ']'").
Notation "m ;; k" := (bind m (fun _ => k))
  (at level 100, k at level 200, right associativity,
   format "'[v' m ;; '/' k ']'").

Definition fatal {S A} (msg : string) : M S A := fail (Fatal msg).

(** run an action on a component of a bigger state *)
Definition zoom {S T A} (gt : S -> T) (st : T -> S -> S) (m : M T A) : M S A :=
  fun s => match m (gt s) with
           | Ok (a, t) => Ok (a, st t s)
           | Fail f => Fail f
           end.

(** ** Programs: sequences of atomic actions on a shared state.
    One [Act] is one critical section, one system call or one thread-local
    computation that other threads cannot observe half-done. *)
Inductive prog (S A : Type) : Type :=
| Ret (a : A)
| Act {B : Type} (m : M S B) (k : B -> prog S A).
Arguments Ret {S A} a.
Arguments Act {S A B} m k.

Fixpoint pbind {S A B} (p : prog S A) (k : A -> prog S B) : prog S B :=
  match p with
  | Ret a => k a
  | Act m k' => Act m (fun b => pbind (k' b) k)
  end.
Definition act {S A} (m : M S A) : prog S A := Act m Ret.

Notation "'do!' x ':=' m 'in' k" := (pbind m (fun x => k))
  (at level 200, x pattern, m at level 100, k at level 200,
   format "'[v' 'do!'  x  ':='  m  'in' '/' k ']'").
Notation "m ;;; k" := (pbind m (fun _ => k))
  (at level 100, k at level 200, right associativity,
   format "'[v' m ;;; '/' k ']'").

(** sequential execution (no other thread interferes) *)
Fixpoint run {S A} (p : prog S A) : M S A :=
  match p with
  | Ret a => ret a
  | Act m k => bind m (fun b => run (k b))
  end.

(** ** Lists as C arrays: an index outside the array is UB. *)
Definition lget {A} (l : list A) (i : Z) : option A :=
  if i <? 0 then None else nth_error l (Z.to_nat i).
Fixpoint nset {A} (l : list A) (n : nat) (x : A) : list A :=
  match l, n with
  | [], _ => []
  | _ :: t, O => x :: t
  | h :: t, S n' => h :: nset t n' x
  end.
Definition lset {A} (l : list A) (i : Z) (x : A) : list A :=
  if i <? 0 then l else nset l (Z.to_nat i) x.
Definition zlen {A} (l : list A) : Z := Z.of_nat (length l).

Definition aget {S A} (l : list A) (i : Z) : M S A :=
  match lget l i with
  | Some x => ret x
  | None => fail (UB "array index out of bounds")
  end.

(** the integers lo, lo+1, ..., lo+n-1 *)
Fixpoint zseq (lo : Z) (n : nat) : list Z :=
  match n with
  | O => []
  | S n' => lo :: zseq (lo + 1) n'
  end.
Definition zrange (lo hi : Z) : list Z := zseq lo (Z.to_nat (hi - lo)).

(** function update *)
Definition fupd {A} (f : Z -> A) (i : Z) (x : A) : Z -> A :=
  fun j => if j =? i then x else f j.

(** little-endian bytes *)
Definition byte_of (v : Z) (i : Z) : Z := Z.land (Z.shiftr v (8 * i)) 255.
Fixpoint le_of_bytes (l : list Z) : Z :=
  match l with
  | [] => 0
  | b :: t => b + 256 * le_of_bytes t
  end.
