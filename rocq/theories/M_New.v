(** new.cc: operator new and operator delete.  The program's new-handlers are arbitrary:
    the n-th call of std::get_new_handler() yields [hq n], a handler that changes the
    heap in an arbitrary way (it may free memory) and returns or throws. *)
From Coq Require Import String ZArith List Bool.
From Verif Require Import M_Base M_Config M_OS M_Slab M_Region M_Api.
Import ListNotations.
Open Scope Z_scope.

Inductive hexit : Type := HReturns | HBadAlloc | HOtherException.
Inductive handler : Type := NoHandler | Handler (effect : state -> state) (e : hexit).
(** what the operator does, newest first: calls of the allocation function with their
    results, calls of a handler *)
Inductive nevent : Type := EAlloc (r : option Z) | EHandler (e : hexit).
Inductive nres : Type :=
| NPtr (p : Z) | NNull          (* returns *)
| NBadAlloc | NOther            (* throws bad_alloc, or lets another exception of a handler through *)
| NTerminate                    (* an exception reached a noexcept function: std::terminate *)
| NMore.                        (* out of fuel: the handlers keep returning and nothing is ever free *)
Record nworld : Type := mkNw { nw_heap : state; nw_query : nat; nw_log : list nevent }.

(** the loop of handle_out_of_memory, new.cc:11-33 (and 83-105 for aligned requests):
    [alloc] is h_malloc(size) or h_aligned_alloc(alignment, size) *)
Fixpoint handle_out_of_memory (alloc : prog state (option Z)) (hq : nat -> handler) (nothrow : bool) (fuel : nat) (w : nworld) : res (nres * nworld) :=
  match fuel with
  | O => Ok (NMore, w)
  | S fuel =>
      let give_up w := Ok (if nothrow then NNull else NBadAlloc, w) in
      match hq (nw_query w) with
      | NoHandler => give_up (mkNw (nw_heap w) (S (nw_query w)) (nw_log w))
      | Handler f e =>
          let w := mkNw (f (nw_heap w)) (S (nw_query w)) (EHandler e :: nw_log w) in
          match e with
          | HBadAlloc => give_up w
          | HOtherException => Ok (if nothrow then NTerminate else NOther, w)
          | HReturns =>
              match run alloc (nw_heap w) with
              | Fail f => Fail f
              | Ok (r, s) =>
                  let w := mkNw s (nw_query w) (EAlloc r :: nw_log w) in
                  match r with
                  | Some p => Ok (NPtr p, w)
                  | None => handle_out_of_memory alloc hq nothrow fuel w
                  end
              end
          end
      end
  end.
(** new_impl, new.cc:35-41 and 107-113 *)
Definition new_impl (alloc : prog state (option Z)) (hq : nat -> handler) (nothrow : bool) (fuel : nat) (w : nworld) : res (nres * nworld) :=
  match run alloc (nw_heap w) with
  | Fail f => Fail f
  | Ok (r, s) =>
      let w := mkNw s (nw_query w) (EAlloc r :: nw_log w) in
      match r with
      | Some p => Ok (NPtr p, w)
      | None => handle_out_of_memory alloc hq nothrow fuel w
      end
  end.
(** operator new and new[], new.cc:43-57 and 115-129: [align] is the std::align_val_t *)
Definition operator_new (g : config) (tid size : Z) (align : option Z) (nothrow : bool) : (nat -> handler) -> nat -> nworld -> res (nres * nworld) :=
  fun hq => new_impl (match align with None => h_malloc g tid size | Some al => h_aligned_alloc g tid al size end) hq nothrow.
(** operator delete and delete[], new.cc:59-81 and 131-153: [size] is the size of the
    sized variants *)
Definition operator_delete (g : config) (p : Z) (size : option Z) : prog state unit :=
  match size with None => h_free g p | Some n => h_free_sized g p n end.
