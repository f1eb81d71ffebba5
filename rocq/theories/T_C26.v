(** C26: failing system calls end the process. *)
From Coq Require Import String ZArith List.
From Verif Require Import M_Base M_Config M_OS M_Random M_Api M_Hist S_Heap S_Err P_Demo P_Err.
Import ListNotations.
Open Scope Z_scope.

(** no execution, of any sequence of calls, has got past a memory system call that failed
    with an error other than ENOMEM, or past a failed getrandom: all the answers the kernel
    has given so far are of another kind *)
Theorem C26_never_continues : forall g W o t s, history g W o t s ->
  sysq (st_os s) = sysq o /\ entq (st_os s) = entq o /\
  (forall n, received o (st_os s) n -> ~ unexpected_failure o n) /\
  (forall n, received_entropy o (st_os s) n -> ~ entropy_failure o n).
Proof. exact C26_history_l. Qed.
Print Assumptions C26_never_continues.

(** the same for a single call made in any state, permitted or not *)
Theorem C26_no_call_returns : forall g tid c s a s', run (op_run g tid c) s = Ok (a, s') ->
  sysq (st_os s') = sysq (st_os s) /\ entq (st_os s') = entq (st_os s) /\
  (forall n, received (st_os s) (st_os s') n -> ~ unexpected_failure (st_os s) n) /\
  (forall n, received_entropy (st_os s) (st_os s') n -> ~ entropy_failure (st_os s) n).
Proof. exact C26_call_l. Qed.
Print Assumptions C26_no_call_returns.

(** the fatal error is raised at the failing call itself, with the message naming it *)
Theorem C26_mmap : forall o, unexpected_failure o (sysn o) -> forall n, memory_map n o = Fail (Fatal "non-ENOMEM mmap failure").
Proof. exact C26_map_l. Qed.
Print Assumptions C26_mmap.
Theorem C26_mmap_fixed : forall o, unexpected_failure o (sysn o) -> forall p n, memory_map_fixed p n o = Fail (Fatal "non-ENOMEM MAP_FIXED mmap failure").
Proof. exact C26_fixed_l. Qed.
Print Assumptions C26_mmap_fixed.
Theorem C26_munmap : forall o, unexpected_failure o (sysn o) -> forall p n, memory_unmap p n o = Fail (Fatal "non-ENOMEM munmap failure").
Proof. exact C26_unmap_l. Qed.
Print Assumptions C26_munmap.
Theorem C26_mprotect_ro : forall o, unexpected_failure o (sysn o) -> forall p n, memory_protect_ro p n o = Fail (Fatal "non-ENOMEM mprotect failure").
Proof. exact C26_protect_ro_l. Qed.
Print Assumptions C26_mprotect_ro.
Theorem C26_mprotect_rw : forall o, unexpected_failure o (sysn o) -> forall p n, memory_protect_rw p n o = Fail (Fatal "non-ENOMEM mprotect failure").
Proof. exact C26_protect_rw_l. Qed.
Print Assumptions C26_mprotect_rw.
Theorem C26_mremap : forall o, unexpected_failure o (sysn o) -> forall p n q m, memory_remap_fixed p n q m o = Fail (Fatal "non-ENOMEM MREMAP_FIXED mremap failure").
Proof. exact C26_remap_l. Qed.
Print Assumptions C26_mremap.
Theorem C26_madvise : forall o, unexpected_failure o (sysn o) -> forall p n, memory_purge p n o = Fail (Fatal "non-ENOMEM MADV_DONTNEED madvise failure").
Proof. exact C26_purge_l. Qed.
Print Assumptions C26_madvise.
(** [fuel o] bounds the retries after EINTR in the model *)
Theorem C26_getrandom : forall o n, entropy_failure o (entn o) -> 0 < n -> (0 < fuel o)%nat -> get_random_seed n o = Fail (Fatal "getrandom failed").
Proof. exact C26_random_l. Qed.
Print Assumptions C26_getrandom.

(** non-vacuity: a program whose mmap for a large block fails with EPERM, after nine system
    calls that succeeded, and one whose first getrandom fails with EIO *)
Example C26_case : history g0 (own_store g0) oE tE sE /\ received oE (st_os sE) 8 /\ unexpected_failure oE 9 /\
  ends g0 (own_store g0) tE sE 0 (OMalloc 200000) (Fatal "non-ENOMEM mmap failure").
Proof.
  split; [exact histE|]. split; [|split].
  - exact (countE_received sE (looksE (LOther countE) (or_intror (or_introl eq_refl)))).
  - split; discriminate.
  - exact (looksE (LEnd _ _ _) (or_introl eq_refl)).
Qed.
Example C26_case_entropy : entropy_failure oR 0 /\ ends g0 (own_store g0) [] (final g0 oR true []) 0 (OMalloc 100) (Fatal "getrandom failed").
Proof. split; [left; split; discriminate|]. exact (proj2 (check_ok _ _ _ _ _ _ checkR) (LEnd _ _ _) (or_introl eq_refl)). Qed.
