(** C43: with CONFIG_SEAL_METADATA allocator state is touched only while access is enabled
    for the thread, and access is disabled again at the return. *)
From Coq Require Import String ZArith List Bool Lia.
From Verif Require Import M_Base M_Config M_SizeClass M_Flow S_Flow P_Flow P_Flow4.
Import ListNotations.
Open Scope Z_scope.

Theorem C43_exported_partial g n f t r : In (n, f) (exported g) -> path f t r ->
  respects_seal t /\ (r = Next -> access false t = false).
Proof. exact (fun H => s_claim f t r (s_exported g n f H)). Qed.
Print Assumptions C43_exported_partial.
(** malloc_info, when writing to the stream does not allocate *)
Theorem C43_malloc_info_partial g t r : path (f_malloc_info g io_plain) t r ->
  respects_seal t /\ (r = Next -> access false t = false).
Proof. exact (s_claim _ t r (s_malloc_info g)). Qed.
Print Assumptions C43_malloc_info_partial.
Theorem C43_malloc_disable g t r : path (f_disable g) t r ->
  respects_seal t /\ (r = Next -> access false t = false).
Proof. exact (s_claim _ t r (s_disable g)). Qed.
Print Assumptions C43_malloc_disable.
Theorem C43_malloc_enable g t r : path (f_enable g) t r ->
  respects_seal t /\ (r = Next -> access false t = false).
Proof. exact (s_claim _ t r (s_enable g)). Qed.
Print Assumptions C43_malloc_enable.
(** the fork handlers *)
Theorem C43_before_fork g t r : path (full_lock g) t r ->
  respects_seal t /\ (r = Next -> access false t = false).
Proof. exact (s_claim _ t r (s_full_lock g)). Qed.
Print Assumptions C43_before_fork.
Theorem C43_after_fork_parent g t r : path (full_unlock g) t r ->
  respects_seal t /\ (r = Next -> access false t = false).
Proof. exact (s_claim _ t r (s_full_unlock g)). Qed.
Print Assumptions C43_after_fork_parent.
Theorem C43_after_fork_child g t r : path (post_fork_child g) t r ->
  respects_seal t /\ (r = Next -> access false t = false).
Proof. exact (s_claim _ t r (s_post_fork g)). Qed.
Print Assumptions C43_after_fork_child.

(** mallinfo_bin_info seals before it reads the class and unseals afterwards: every read
    happens without access, and it returns with access enabled *)
Theorem C43_bin_info_refuted a k :
  exists t, path f_bin_info t Next /\ In (ITouch (LClass a k)) t /\ ~ respects_seal t /\ access false t = true.
Proof. exact (bin_info_unsealed a k). Qed.
Print Assumptions C43_bin_info_refuted.
(** malloc_info on a stream that allocates while it is written (open_memstream): the
    allocation seals, and malloc_info goes on without access *)
Theorem C43_malloc_info_refuted g : 1 <= N_ARENA g -> 1 <= N_SIZE_CLASSES g ->
  exists t, path (f_malloc_info g (io_alloc g)) t Next /\ ~ respects_seal t.
Proof. exact (info_unsealed g). Qed.
Print Assumptions C43_malloc_info_refuted.

(** a path of malloc that touches a size class *)
Example C43_malloc_touches g : path (f_malloc g) (malloc_trace 0 3) Next /\
  existsb touches (malloc_trace 0 3) = true /\ access false (malloc_trace 0 3) = false.
Proof. exact (conj (malloc_path g 0 3) (conj eq_refl eq_refl)). Qed.
