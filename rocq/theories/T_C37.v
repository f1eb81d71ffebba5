(** C37: thread safety.  [execution R g o t x]: threads in any number make calls and stores
    that follow the rules [R]; the critical sections, system calls and memory accesses of
    their calls interleave in any way; [t] is what they did and saw, newest first. *)
From Coq Require Import String ZArith List Bool Lia.
From Verif Require Import M_Base M_Config M_SizeClass M_OS M_Random M_Slab M_Region M_Api M_Hist M_Conc S_Heap S_Conc P_Demo P_Demo4 P_Demo8 P_Conc7.
Import ListNotations.
Open Scope Z_scope.

(** full statement: as below, for [lawful] programs (alignments above the page size with any
    kernel, which is refuted below; the theorems cover them if the kernel is obliging), and with
    malloc_usable_size and malloc_object_size of a block that other threads use at the same
    time.  Reckless programs that pass realloc a pointer another thread frees at the same time
    are left out: the copy that realloc makes may then read memory that is gone *)

(** the blocks in the hands of the program are distinct, accessible and disjoint *)
Theorem C37_blocks_partial : forall (g : config) (o : os) (t : list cev) (x : conc),
  usable_config g = true -> execution (correct g o) g o t x ->
  NoDup (map fst (in_hand t)) /\
  (forall p b y, In (p, b) (in_hand t) -> p <= y < p + request b -> accessible (co_st x) y) /\
  (forall p b q c y, In (p, b) (in_hand t) -> In (q, c) (in_hand t) -> p <= y < p + request b -> q <= y < q + request c -> p = q).
Proof. exact conc_blocks. Qed.
Print Assumptions C37_blocks_partial.

(** no step of any thread's call changes a byte of a block in the hands of the program; the
    program's own stores change the byte they store only *)
Theorem C37_contents_partial : forall (g : config) (o : os) (t : list cev) (x : conc) (e : list cev) (x' : conc) (p : Z) (b : op) (y : Z),
  usable_config g = true -> execution (correct g o) g o t x -> table_cleared (co_st x) -> cstep g x e x' ->
  In (p, b) (in_hand t) -> p <= y < p + request b -> (forall tid v, ~ In (Stored tid y v) e) -> content (co_st x') y = content (co_st x) y.
Proof. exact conc_contents. Qed.
Print Assumptions C37_contents_partial.

(** realloc of a block in hand, from its beginning to its end, whatever the other threads do
    in between: the new block has the contents the old one had; if realloc fails, the old
    block still has them *)
Theorem C37_realloc_partial : forall (g : config) (o : os) (t : list cev) (x : conc) (tid p n : Z) (b : op) (x1 : conc) (t2 : list cev) (x2 : conc) (a : ans) (x3 : conc),
  usable_config g = true -> execution (correct g o) g o t x -> table_cleared (co_st x) -> In (p, b) (in_hand t) -> p <> 0 ->
  cstep g x [Began tid (ORealloc p n)] x1 -> correct g o t (Began tid (ORealloc p n)) ->
  goes_on (correct g o) g tid (Began tid (ORealloc p n) :: t) x1 t2 x2 ->
  cstep g x2 [Ended tid (ORealloc p n) a] x3 ->
  match a with
  | APtr q => forall i, 0 <= i < Z.min (request b) n -> content (co_st x3) (q + i) = content (co_st x) (p + i)
  | _ => a = ANull /\ forall i, 0 <= i < request b -> content (co_st x3) (p + i) = content (co_st x) (p + i)
  end.
Proof. exact conc_realloc. Qed.
Print Assumptions C37_realloc_partial.

(** when calloc returns, the block is zero, whatever the other threads did during the call *)
Theorem C37_calloc_partial : forall (g : config) (o : os) (t : list cev) (x : conc) (tid m n q : Z) (x' : conc),
  usable_config g = true -> execution (correct g o) g o t x -> cstep g x [Ended tid (OCalloc m n) (APtr q)] x' ->
  forall i, 0 <= i < m * n -> content (co_st x') (q + i) = 0.
Proof. exact conc_calloc. Qed.
Print Assumptions C37_calloc_partial.

(** no call of a correct program aborts or crashes, except when the kernel fails in a way
    the allocator does not handle, or in free_sized (for which see C19): none of the
    allocator's own checks, of its data structures and of freed memory, fails *)
Theorem C37_aborts_partial : forall (g : config) (o : os) (t : list cev) (x : conc) (tid : Z) (c : op) (f : fault),
  usable_config g = true -> execution (correct g o) g o t x -> aborts g x tid c f ->
  kernel_abort f \/ startup_abort f \/ (exists p n, c = OFreeSized p n) /\ size_mismatch f.
Proof. exact conc_aborts. Qed.
Print Assumptions C37_aborts_partial.

(** double free: threads free any pointer at any time and store anywhere; as long as no
    allocation is running, a pointer has been freed at most as often as it was handed out, so
    of two concurrent frees of one block at most one returns *)
Theorem C37_double_free_partial : forall (g : config) (o : os) (t : list cev) (x : conc) (p : Z),
  usable_config g = true -> execution (reckless g o) g o t x -> no_allocation_running x -> p <> 0 -> times_freed t p <= times_given t p.
Proof. exact conc_freed. Qed.
Print Assumptions C37_double_free_partial.

(** and when no call is running at all, a pointer was handed out at most once more than it was
    freed: it is in at most one hand *)
Theorem C37_one_owner_partial : forall (g : config) (o : os) (t : list cev) (x : conc) (p : Z),
  usable_config g = true -> execution (reckless g o) g o t x -> (forall tid, co_run x tid = None) -> p <> 0 -> 0 <= times_given t p - times_freed t p <= 1.
Proof. exact conc_balance. Qed.
Print Assumptions C37_one_owner_partial.

(** even then the calls only end the process with one of the allocator's messages ([Retry]:
    the random source fails for ever); they never touch memory that is not theirs to touch
    ([Segv]) and never do anything undefined *)
Theorem C37_no_corruption_partial : forall (g : config) (o : os) (t : list cev) (x : conc) (tid : Z) (c : op) (f : fault),
  usable_config g = true -> execution (reckless g o) g o t x -> aborts g x tid c f -> f = Retry \/ exists m, f = Fatal m.
Proof. exact conc_reckless. Qed.
Print Assumptions C37_no_corruption_partial.

(** an aligned allocation of more than the page size in one thread can unmap the block of
    another thread: allocate_pages_aligned unmaps the pages in front of the block, another
    thread's block is mapped there, the kernel refuses to unmap the pages behind the block
    (ENOMEM), and the whole original range is unmapped *)
Theorem C37_aligned_refuted : exists (g : config) (o : os) (t : list cev) (x : conc) (p : Z) (b : op),
  usable_config g = true /\ execution (lawful g) g o t x /\ In (p, b) (in_hand t) /\ 0 < request b /\ ~ accessible (co_st x) p.
Proof.
  exists g0, o_unlucky, (fst d_unlucky), (snd d_unlucky), 42949689344, (OMalloc 200000). split; [reflexivity|]. split; [exact (drives_ok g0 o_unlucky KLawful demo_unlucky)|].
  split; [rewrite d_unlucky_hands; left; reflexivity|]. split; [reflexivity|]. unfold accessible. rewrite d_unlucky_gone. discriminate.
Qed.
Print Assumptions C37_aligned_refuted.

(** examples: three blocks are in hand, one of them aligned to 65536, while thread 0 is in the middle of a realloc, which can
    go on; a stored byte is still there *)
Example C37_correct_case : execution (correct g0 o0) g0 o0 (fst d_correct) (snd d_correct) /\
  in_hand (fst d_correct) = [(68719542272, OMemalign 65536 1000); (25829208064, OMemalign 4096 100); (42949701632, OMalloc 200000)] /\
  (exists p, co_run (snd d_correct) 0 = Some (ORealloc 25824430080 500000, p)) /\ content (co_st (snd d_correct)) 42949701639 = 5 /\
  table_cleared (co_st (snd d_correct)) /\ exists x', cstep g0 (snd d_correct) [] x'.
Proof.
  split; [exact d_correct_ok|]. split; [exact d_correct_hands|]. split; [exact (runs_ok _ _ _ d_correct_runs)|]. split; [exact d_correct_content|]. exact (nextb_ok _ _ _ _ d_correct_next).
Qed.
(** two threads free the same block: one returns, the other aborts *)
Example C37_double_case : execution (reckless g0 o0) g0 o0 (fst d_double) (snd d_double) /\
  (times_given (fst d_double) 42949701632 = 1 /\ times_freed (fst d_double) 42949701632 = 1) /\ aborts g0 (snd d_double) 1 (OFree 42949701632) (Fatal "invalid free").
Proof. split; [exact (drives_ok g0 o0 KReckless demo_double)|]. split; [exact d_double_counts|]. exact (abortsb_ok _ _ _ _ _ d_double_aborts). Qed.
(** thread 0 moves a block of 3000 bytes with realloc while thread 1 frees a block and allocates
    another one: two stored bytes are in the new block *)
Example C37_realloc_case : exists t x x1 t2 x2 q x3, execution (correct g0 o0) g0 o0 t x /\ table_cleared (co_st x) /\ In (25824430080, OMalloc 3000) (in_hand t) /\
  cstep g0 x [Began 0 (ORealloc 25824430080 500000)] x1 /\ correct g0 o0 t (Began 0 (ORealloc 25824430080 500000)) /\
  goes_on (correct g0 o0) g0 0 (Began 0 (ORealloc 25824430080 500000) :: t) x1 t2 x2 /\ cstep g0 x2 [Ended 0 (ORealloc 25824430080 500000) (APtr q)] x3 /\
  q <> 25824430080 /\ ended 1 t2 = ended 1 t + 2 /\
  content (co_st x) (25824430080 + 7) = 5 /\ content (co_st x) (25824430080 + 2999) = 6 /\ content (co_st x3) (q + 7) = 5 /\ content (co_st x3) (q + 2999) = 6.
Proof. exact realloc_case. Qed.
(** thread 0 calls calloc(500, 600) while thread 1 frees a block it stored to and allocates *)
Example C37_calloc_case : exists t x q x', execution (correct g0 o0) g0 o0 t x /\ cstep g0 x [Ended 0 (OCalloc 500 600) (APtr q)] x' /\ content (co_st x') (q + 299999) = 0 /\ 2 <= ended 1 t.
Proof. exact calloc_case. Qed.
