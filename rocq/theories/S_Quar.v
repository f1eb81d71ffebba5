(** Vocabulary for the quarantine of large blocks. *)
From Coq Require Import ZArith List Bool.
From Verif Require Import M_Base M_Config M_OS M_Slab M_Region M_Api M_Hist S_Heap S_Class.
Open Scope Z_scope.

(** the call gives address space of a large block back: a free of a large block smaller
    than the configured skip threshold, or a realloc of a large block (it may cut off a
    tail, or free the block after a copy) *)
Definition may_quarantine (g : config) (s : state) (c : op) : Prop :=
  match c with
  | OFree p | OFreeSized p _ => p <> 0 /\ ~ in_small_area s p /\ exists n, usable_size g s p n /\ n < REGION_QUARANTINE_SKIP_THRESHOLD g
  | ORealloc p _ => p <> 0 /\ ~ in_small_area s p
  | _ => False
  end.
(** from [t, s] the program goes on to [t', s'], and at most [n] of its calls may
    quarantine *)
Inductive at_most (g : config) (W : store_rule) (t : trace) (s : state) : nat -> trace -> state -> Prop :=
| at_most_none : at_most g W t s 0 t s
| at_most_other n t1 s1 tid c a s2 :
    at_most g W t s n t1 s1 -> calls g W t1 s1 tid c a s2 -> ~ may_quarantine g s1 c -> at_most g W t s n (mkEv tid c a :: t1) s2
| at_most_one n t1 s1 tid c a s2 :
    at_most g W t s n t1 s1 -> calls g W t1 s1 tid c a s2 -> at_most g W t s (S n) (mkEv tid c a :: t1) s2.
(** how many quarantining calls a freed large block outlasts: the length of the queue, and
    one more when the random array comes first *)
Definition quarantine_length (g : config) : Z :=
  REGION_QUARANTINE_QUEUE_LENGTH g + (if 0 <? REGION_QUARANTINE_RANDOM_LENGTH g then 1 else 0).
(** the kernel never answered "out of memory" to a memory system call *)
Definition never_refused (s : state) : Prop := forall i, (i < sysn (st_os s))%nat -> sa_errno (sysq (st_os s) i) <> ENOMEM.
(** [c] frees [p] *)
Definition frees (c : op) (p : Z) : Prop := c = OFree p \/ exists n, c = OFreeSized p n.
(** the address belongs to a mapping: mmap does not choose it *)
Definition mapped (s : state) (x : Z) : Prop := pages (st_os s) (page_of x) <> None.
