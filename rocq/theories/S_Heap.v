(** Specification vocabulary for programs that call the allocator: what a program did and
    saw, and which blocks it owns.  Everything here is computed from the trace of calls
    and answers only; the allocator's data structures are not mentioned. *)
From Coq Require Import String ZArith List Bool.
From Verif Require Import M_Base M_Config M_SizeClass M_OS M_Slab M_Region M_Api M_Hist S_SizeClass.
Import ListNotations.
Open Scope Z_scope.

(** one completed call: the calling thread, the call, the answer *)
Record event : Type := mkEv { e_tid : Z; e_op : op; e_ans : ans }.
(** newest event first *)
Definition trace : Type := list event.

(** how many bytes a call asks for *)
Definition request (c : op) : Z :=
  match c with
  | OMalloc n | ORealloc _ n | OPosixMemalign _ n | OAlignedAlloc _ n | OMemalign _ n | OValloc n | OPvalloc n => n
  | OCalloc m n => m * n
  | _ => 0
  end.
(** the alignment a call asks for; malloc, calloc and realloc promise 16 *)
Definition alignment (c : op) : Z :=
  match c with
  | OPosixMemalign al _ | OAlignedAlloc al _ | OMemalign al _ => al
  | OValloc _ | OPvalloc _ => 4096
  | _ => 16
  end.
Definition allocates (c : op) : bool :=
  match c with
  | OMalloc _ | OCalloc _ _ | ORealloc _ _ | OPosixMemalign _ _ | OAlignedAlloc _ _ | OMemalign _ _ | OValloc _ | OPvalloc _ => true
  | _ => false
  end.
(** arguments are 64-bit words *)
Definition word (x : Z) : Prop := 0 <= x < 2 ^ 64.
Definition words (c : op) : Prop :=
  match c with
  | OMalloc n | OValloc n | OPvalloc n => word n
  | OCalloc m n => word m /\ word n
  | ORealloc p n | OFreeSized p n => word p /\ word n
  | OPosixMemalign al n | OAlignedAlloc al n | OMemalign al n => word al /\ word n
  | OFree p | OUsableSize p | OObjectSize p | OObjectSizeFast p => word p
  | OTrim => True
  | OWrite x v => word x
  end.

(** the blocks a program owns: the pointer and the call that returned it *)
Definition owned : Type := list (Z * op).
Definition forget (p : Z) (l : owned) : owned := filter (fun b => negb (fst b =? p)) l.
Definition after (e : event) (l : owned) : owned :=
  match e_op e, e_ans e with
  | ORealloc old _, APtr q => (q, e_op e) :: forget old l
  | OFree p, AUnit | OFreeSized p _, AUnit => forget p l
  | c, APtr q => if allocates c then (q, c) :: l else l
  | _, _ => l
  end.
Fixpoint live (t : trace) : owned := match t with [] => [] | e :: t => after e (live t) end.
Definition is_live (t : trace) (p : Z) : Prop := exists c, In (p, c) (live t).

(** ** Observations of a state *)
(** malloc_usable_size(p) returns n *)
Definition usable_size (g : config) (s : state) (p n : Z) : Prop := exists s', run (h_malloc_usable_size g p) s = Ok (n, s').
Definition content (s : state) (x : Z) : Z := mem (st_os s) x.
Definition accessible (s : state) (x : Z) : Prop := pages (st_os s) (page_of x) = Some PRW.
(** any access faults *)
Definition inaccessible (s : state) (x : Z) : Prop := pages (st_os s) (page_of x) = Some PNone.

(** ** Programs *)
(** A small block with an alignment above the page size: realloc does not support it
    (see T_C16.v). *)
Definition overaligned (g : config) (c : op) : Prop := 4096 < alignment c /\ request c + canary_size g <= max_slab_size_class g.
(** The pointers a program may pass to realloc.  The other functions take anything. *)
Definition permitted (g : config) (l : owned) (c : op) : Prop :=
  match c with
  | ORealloc p _ => p = 0 \/ exists b, In (p, b) l /\ ~ overaligned g b
  | _ => True
  end.
(** Stores: [any_store] lets the program store anywhere outside the allocator state
    (also after free or beyond the end of a block); [own_store] only inside the usable
    range of its blocks. *)
Definition store_rule : Type := owned -> state -> Z -> Prop.
Definition any_store : store_rule := fun _ _ _ => True.
Definition own_store (g : config) : store_rule := fun l s x => exists p c n, In (p, c) l /\ usable_size g s p n /\ p <= x < p + n.
Definition store_ok (W : store_rule) (l : owned) (s : state) (c : op) : Prop := match c with OWrite x _ => W l s x | _ => True end.
(** The kernel did not refuse to clear a retired table of large blocks.  The code ignores
    that failure (h_malloc.c:1045), see T_C23.v for what happens then. *)
Definition table_cleared (s : state) : Prop := ra_leftover (st_ra s) = false.

(** [history g W o t s]: a process that started with memory and kernel behaviour [o] made
    the calls of [t] and is now in state [s]. *)
Inductive history (g : config) (W : store_rule) (o : os) : trace -> state -> Prop :=
| history_start : history g W o [] (boot g o)
| history_call t s tid c a s' : history g W o t s -> table_cleared s -> words c -> permitted g (live t) c -> store_ok W (live t) s c ->
    run (op_run g tid c) s = Ok (a, s') -> history g W o (mkEv tid c a :: t) s'.
(** a call that ends the process *)
Definition ends (g : config) (W : store_rule) (t : trace) (s : state) (tid : Z) (c : op) (f : fault) : Prop :=
  table_cleared s /\ words c /\ permitted g (live t) c /\ store_ok W (live t) s c /\ run (op_run g tid c) s = Fail f.

(** the process was ended because the kernel failed with an unexpected error, because the
    random generator failed, or because it was being drawn forever *)
Definition kernel_abort (f : fault) : Prop :=
  f = Retry \/ In f (map Fatal
    ["non-ENOMEM mmap failure"; "non-ENOMEM MAP_FIXED mmap failure"; "non-ENOMEM munmap failure"; "non-ENOMEM mprotect failure";
     "non-ENOMEM MREMAP_FIXED mremap failure"; "non-ENOMEM MADV_DONTNEED madvise failure"; "getrandom failed"]%string).
(** start-up could not get the address space or memory it needs *)
Definition startup_abort (f : fault) : Prop :=
  In f (map Fatal
    ["failed to allocate init rng"; "failed to reserve allocator state"; "failed to unprotect allocator state";
     "failed to unprotect memory for regions table"; "failed to allocate slab region"]%string).
(** the address a call gives up when it succeeds *)
Definition releases (c : op) : option Z :=
  match c with ORealloc p _ | OFree p | OFreeSized p _ => Some p | _ => None end.
(** the block at [p] is not given up by this call (a realloc that fails gives up nothing) *)
Definition keeps (c : op) (a : ans) (p : Z) : Prop := releases c <> Some p \/ a = ANull.
(** the byte a call of the program stores to *)
Definition stores (c : op) : option Z := match c with OWrite x _ => Some x | _ => None end.

(** a call that returns *)
Definition calls (g : config) (W : store_rule) (t : trace) (s : state) (tid : Z) (c : op) (a : ans) (s' : state) : Prop :=
  table_cleared s /\ words c /\ permitted g (live t) c /\ store_ok W (live t) s c /\ run (op_run g tid c) s = Ok (a, s').
(** the program may use [n] bytes at [p], the block returned by [c]: as many as it asked
    for, or as many as malloc_usable_size reports *)
Definition extent (g : config) (s : state) (p : Z) (c : op) (n : Z) : Prop := n = request c \/ usable_size g s p n.
(** the blocks of [l] keep their contents, their sizes and stay accessible *)
Definition undisturbed (g : config) (l : owned) (s s' : state) : Prop := forall p c, In (p, c) l ->
  (forall n x, extent g s p c n -> p <= x < p + n -> accessible s' x /\ content s' x = content s x) /\
  (forall n m, usable_size g s p n -> usable_size g s' p m -> m = n).
(** a call that creates a block and gives up none *)
Definition fresh (c : op) : Prop := allocates c = true /\ forall p n, c = ORealloc p n -> p = 0.
Definition power_of_two (a : Z) : Prop := exists k, 0 <= k /\ a = 2 ^ k.
(** A small block: its usable size and the canary fit the largest small size.  Larger
    blocks are mappings of their own. *)
Definition small (g : config) (s : state) (p : Z) (c : op) (n : Z) : Prop :=
  usable_size g s p n /\ n + canary_size g <= max_slab_size_class g /\ ~ overaligned g c.
(** the process goes on from [t], [s] to [t'], [s'] *)
Inductive continues (g : config) (W : store_rule) (t : trace) (s : state) : trace -> state -> Prop :=
| continues_here : continues g W t s t s
| continues_call t1 s1 tid c a s2 : continues g W t s t1 s1 -> calls g W t1 s1 tid c a s2 -> continues g W t s (mkEv tid c a :: t1) s2.
(** the events of [t'] after [t] *)
Definition since (t t' : trace) : list event := firstn (length t' - length t) t'.

(** ** Sizes *)
(** the bytes a block of [n] bytes needs: small blocks also hold a canary *)
Definition padded (g : config) (n : Z) : Z := if (0 <? n) && (n <=? max_slab_size_class g) then n + canary_size g else n.
(** a request is rounded to the smallest size of the scheme that holds it *)
Definition rounds_to (g : config) (n r : Z) : Prop :=
  least (if padded g n <=? max_slab_size_class g then slab_class (max_slab_size_class g)
         else if LARGE_SIZE_CLASSES g then geometric else page_multiple) (padded g n) r.
(** the usable size [u] of a block from malloc([n]): the rounded size without the canary *)
Definition malloc_size (g : config) (n u : Z) : Prop := exists r, rounds_to g n r /\
  u = (if n =? 0 then 0 else if padded g n <=? max_slab_size_class g then r - canary_size g else r).
Definition same_size (g : config) (m n : Z) : Prop := exists r, rounds_to g m r /\ rounds_to g n r.
Definition size_mismatch (f : fault) : Prop :=
  f = Fatal "sized deallocation mismatch (small)" \/ f = Fatal "sized deallocation mismatch (large)".

(** ** Failures *)
Definition bad_alignment (c : op) : Prop :=
  match c with
  | OPosixMemalign al _ => ~ (power_of_two al /\ 8 <= al)
  | OAlignedAlloc al _ | OMemalign al _ => ~ power_of_two al
  | _ => False
  end.
Definition plain (c : op) : Prop := match c with OMalloc _ | OCalloc _ _ | ORealloc _ _ => True | _ => False end.
(** an allocation failed with error [e]: posix_memalign returns it, the others set errno *)
Definition fails (c : op) (a : ans) (s' : state) (e : Z) : Prop :=
  match c with
  | OPosixMemalign _ _ => a = AErr e
  | _ => a = ANull /\ errno (st_os s') = e
  end.
(** The table of large blocks cannot grow any further (it holds at most
    [MAX_REGION_TABLE_SIZE] entries). *)
Definition table_limit (g : config) (s : state) : Prop := MAX_REGION_TABLE_SIZE g < 2 * (if is_init s then ra_total (st_ra s) else 128).

(** ** Valid use *)
(** the arguments of free, free_sized, malloc_usable_size and malloc_object_size are as
    their documentation demands ([st_start], [st_end] delimit the area of small blocks) *)
Definition valid_call (g : config) (t : trace) (s : state) (c : op) : Prop :=
  match c with
  | OFree p | OFreeSized p _ | OUsableSize p => p = 0 \/ is_live t p
  | OObjectSize p => p = 0 \/ ~ st_start s <= p < st_end s \/ exists q b n, In (q, b) (live t) /\ small g s q b n /\ q <= p < q + n
  | _ => True
  end.
(** pages given back to or never taken from the kernel between [lo] and [hi]: every access
    faults *)
Definition guarded (s : state) (lo hi : Z) : Prop := lo < hi /\ forall x, lo <= x < hi -> inaccessible s x.
Definition page_up (x : Z) : Z := (x + 4095) / 4096 * 4096.
