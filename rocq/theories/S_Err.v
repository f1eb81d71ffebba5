(** What "a failing system call" means, for C26 *)
From Coq Require Import ZArith List.
From Verif Require Import M_Base M_OS.
Import ListNotations.
Open Scope Z_scope.

(** the answer number [n] of the kernel to a memory system call (mmap, munmap, mprotect,
    mremap, madvise) is a failure other than ENOMEM *)
Definition unexpected_failure (o : os) (n : nat) : Prop := sa_errno (sysq o n) <> 0 /\ sa_errno (sysq o n) <> ENOMEM.
(** the answer number [n] of the kernel to getrandom is a failure other than EINTR, or
    delivers nothing *)
Definition entropy_failure (o : os) (n : nat) : Prop :=
  en_errno (entq o n) <> 0 /\ en_errno (entq o n) <> EINTR \/ en_errno (entq o n) = 0 /\ en_bytes (entq o n) = [].
(** the kernel gave the answers number [sysn o, .., sysn o' - 1] between [o] and [o'], and
    what it will answer is not changed by the process *)
Definition received (o o' : os) (n : nat) : Prop := (sysn o <= n < sysn o')%nat.
Definition received_entropy (o o' : os) (n : nat) : Prop := (entn o <= n < entn o')%nat.
