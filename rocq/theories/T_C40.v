(** C40: operator new and operator delete follow the C++ contract. *)
From Coq Require Import String ZArith List Bool Lia.
From Verif Require Import M_Base M_Config M_OS M_Slab M_Region M_Api M_Hist M_New S_Heap S_New P_Demo P_New.
Import ListNotations.
Open Scope Z_scope.

(** whatever the new-handlers do: the operator asks malloc (aligned_alloc for an aligned
    type) for exactly the requested size; it asks again only after the current handler
    returned, each time with the handler installed then; throwing new never returns null,
    nothrow new returns null instead of throwing bad_alloc, and giving up means that there
    is no handler or it threw bad_alloc *)
Theorem C40_new_contract : forall (g : config) (tid size : Z) (align : option Z) (nothrow : bool) (hq : nat -> handler) (fuel : nat) (s0 : state) (r : nres) (w' : nworld),
  operator_new g tid size align nothrow hq fuel (mkNw s0 0 []) = Ok (r, w') ->
  conforms g tid size align nothrow hq s0 fuel r (nw_heap w') (nw_log w').
Proof. exact new_contract. Qed.
Print Assumptions C40_new_contract.

(** delete, with or without the size given to new, returns (unless the kernel fails
    unexpectedly); delete of a block of aligned new too, if no size is given *)
Theorem C40_delete_returns : forall (g : config) (o : os) (t : trace) (s : state) (p : Z) (c : op) (size : option Z),
  usable_config g = true -> history g (own_store g) o t s -> In (p, c) (live t) -> size = None \/ (exists m, c = OMalloc m /\ size = Some m) ->
  (exists s', run (operator_delete g p size) s = Ok (tt, s')) \/ (exists f, run (operator_delete g p size) s = Fail f /\ kernel_abort f).
Proof. exact delete_ok. Qed.
Print Assumptions C40_delete_returns.

(** for aligned new it is false of the code: sized delete of a block with exactly the size
    given to aligned new aborts *)
Theorem C40_aligned_sized_delete_refuted : exists (g : config) (o : os) (t : trace) (s : state) (p al n : Z) (f : fault),
  usable_config g = true /\ history g (own_store g) o t s /\ In (p, OAlignedAlloc al n) (live t) /\
  run (operator_delete g p (Some n)) s = Fail f /\ size_mismatch f.
Proof. exact aligned_delete_bad. Qed.
Print Assumptions C40_aligned_sized_delete_refuted.

(** non-vacuity: a request that fails three times; two handlers return, the third throws *)
Definition hq40 (n : nat) : handler := match n with 0%nat | 1%nat => Handler (fun s => s) HReturns | _ => Handler (fun s => s) HBadAlloc end.
Definition log40 (r : res (nres * nworld)) : option (nres * list nevent) := match r with Ok (x, w) => Some (x, nw_log w) | Fail _ => None end.
Example C40_case : log40 (operator_new g0 0 16 (Some 3) false hq40 5 (mkNw (boot g0 o0) 0 [])) =
  Some (NBadAlloc, [EHandler HBadAlloc; EAlloc None; EHandler HReturns; EAlloc None; EHandler HReturns; EAlloc None]).
Proof. vm_compute. reflexivity. Qed.
Example C40_case_nothrow : log40 (operator_new g0 0 16 (Some 3) true (fun _ => NoHandler) 5 (mkNw (boot g0 o0) 0 [])) = Some (NNull, [EAlloc None]).
Proof. vm_compute. reflexivity. Qed.
(** a live block that can be deleted *)
Example C40_case_delete : history g0 (own_store g0) o0 t1 s1 /\ In (25784834800, OMalloc 100) (live t1).
Proof. split; [exact demo1_history|cbn; tauto]. Qed.
