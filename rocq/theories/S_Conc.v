(** Specification vocabulary for threads that call the allocator at the same time: which
    blocks the program has in its hands, and which calls and stores it may make.
    Everything is computed from the calls, returns and stores of the schedule. *)
From Coq Require Import String ZArith List Bool.
From Verif Require Import M_Base M_Config M_OS M_Region M_Api M_Hist M_Conc S_Heap.
Import ListNotations.
Open Scope Z_scope.

(** the calls that work on a block of the program, and the block: it is the call's from the
    moment the call begins.  Simplification: malloc_usable_size and malloc_object_size borrow
    the block exclusively, so that no other thread uses the block until they have returned. *)
Definition borrows (c : op) : bool :=
  match c with
  | OFree p | OFreeSized p _ | ORealloc p _ | OUsableSize p | OObjectSize p => negb (p =? 0)
  | _ => false
  end.
Definition borrowed (c : op) (e : Z * op) : bool :=
  match c with
  | OFree p | OFreeSized p _ | ORealloc p _ | OUsableSize p => fst e =? p
  | OObjectSize x => (fst e <=? x) && (x <? fst e + request (snd e))
  | _ => false
  end.
(** the first entry that [f] accepts, and the list without it *)
Fixpoint take (f : Z * op -> bool) (l : owned) : option ((Z * op) * owned) :=
  match l with
  | [] => None
  | e :: l => if f e then Some (e, l) else match take f l with Some (b, l') => Some (b, e :: l') | None => None end
  end.
(** a call that returns gives back the block it borrowed, if it did not use it up, and the
    block it allocated *)
Definition back (b : option (Z * op)) (c : op) (a : ans) : owned :=
  match c, a with
  | OUsableSize _, _ | OObjectSize _, _ | ORealloc _ _, ANull => match b with Some e => [e] | None => [] end
  | _, APtr q => if allocates c then [(q, c)] else []
  | _, _ => []
  end.
(** the blocks in the hands of the program (of any thread), and the blocks in the hands of
    running calls *)
Record hands : Type := mkHands { h_live : owned; h_lent : Z -> option (Z * op) }.
Definition hand (e : cev) (h : hands) : hands :=
  match e with
  | Began tid c =>
      if borrows c then
        match take (borrowed c) (h_live h) with
        | Some (b, l) => mkHands l (fupd (h_lent h) tid (Some b))
        | None => mkHands (h_live h) (fupd (h_lent h) tid None)
        end
      else mkHands (h_live h) (fupd (h_lent h) tid None)
  | Ended tid c a => mkHands (back (h_lent h tid) c a ++ h_live h) (fupd (h_lent h) tid None)
  | Stored _ _ _ => h
  end.
(** newest event first *)
Fixpoint handed (t : list cev) : hands :=
  match t with [] => mkHands [] (fun _ => None) | e :: t => hand e (handed t) end.
Definition in_hand (t : list cev) : owned := h_live (handed t).

(** Lawful programs: blocks are freed, resized and queried by the thread that has them in
    its hands, and stores stay inside them.  malloc_object_size is given the address of a byte
    of such a block (for blocks of size zero see T_C18.v). *)
Definition lawful (g : config) (t : list cev) (e : cev) : Prop :=
  match e with
  | Began _ c => words c /\ (borrows c = true -> exists e, In e (in_hand t) /\ borrowed c e = true) /\
      match c with OWrite _ _ => False | _ => True end
  | Stored _ x _ => exists p b, In (p, b) (in_hand t) /\ p <= x < p + request b
  | Ended _ _ _ => True
  end.
(** the kernel never refuses a request with ENOMEM *)
Definition obliging (o : os) : Prop := forall n, sa_errno (sysq o n) <> ENOMEM.
(** Correct programs: also, alignments are at most the page size unless the kernel is obliging
    (T_C37.v shows what happens otherwise), and realloc is not given the small blocks with an
    alignment above the page size that it does not support (T_C16.v). *)
Definition correct (g : config) (o : os) (t : list cev) (e : cev) : Prop :=
  lawful g t e /\
  (forall tid c, e = Began tid c -> alignment c <= 4096 \/ obliging o) /\
  (forall tid p n b, e = Began tid (ORealloc p n) -> In (p, b) (in_hand t) -> ~ overaligned g b).
(** Reckless programs: they free and query anything, any number of times, and store
    wherever the kernel lets them.  realloc of a pointer that is not NULL is not covered,
    nor is a calloc that has to clear the block itself, nor malloc_object_size (for which see
    T_C18.v). *)
Definition reckless (g : config) (o : os) (t : list cev) (e : cev) : Prop :=
  match e with
  | Began _ c => words c /\ (alignment c <= 4096 \/ obliging o) /\
      match c with
      | ORealloc p _ => p = 0
      | OCalloc _ _ => ZERO_ON_FREE g = true
      | OObjectSize _ | OWrite _ _ => False
      | _ => True
      end
  | _ => True
  end.
(** the executions of programs that follow the rules [R], newest event first.  As in
    S_Heap.v the kernel has not refused to clear a retired table of large blocks. *)
Definition rules : Type := list cev -> cev -> Prop.
Inductive execution (R : rules) (g : config) (o : os) : list cev -> conc -> Prop :=
| execution_start : execution R g o [] (first g o)
| execution_step t x e x' : execution R g o t x -> table_cleared (co_st x) -> cstep g x e x' -> (forall a, In a e -> R t a) ->
    execution R g o (e ++ t) x'.
(** from [t0] and [x0] on, the threads go on, and thread [tid] makes no new call *)
Inductive goes_on (R : rules) (g : config) (tid : Z) (t0 : list cev) (x0 : conc) : list cev -> conc -> Prop :=
| goes_start : goes_on R g tid t0 x0 t0 x0
| goes_step t x e x' : goes_on R g tid t0 x0 t x -> table_cleared (co_st x) -> cstep g x e x' -> (forall a, In a e -> R t a) -> (forall c, ~ In (Began tid c) e) ->
    goes_on R g tid t0 x0 (e ++ t) x'.
(** the next step of thread [tid], which is in call [c], ends the process *)
Definition aborts (g : config) (x : conc) (tid : Z) (c : op) (f : fault) : Prop :=
  table_cleared (co_st x) /\ exists B (m : M state B) k, co_run x tid = Some (c, Act m k) /\ m (co_st x) = Fail f.

(** how often [p] was handed out, and how often a free of [p] returned *)
Fixpoint times_given (t : list cev) (p : Z) : Z :=
  match t with
  | [] => 0
  | Ended _ c (APtr q) :: t => (if allocates c && (q =? p) then 1 else 0) + times_given t p
  | _ :: t => times_given t p
  end.
Fixpoint times_freed (t : list cev) (p : Z) : Z :=
  match t with
  | [] => 0
  | Ended _ (OFree q) _ :: t | Ended _ (OFreeSized q _) _ :: t => (if q =? p then 1 else 0) + times_freed t p
  | _ :: t => times_freed t p
  end.
(** no thread is in the middle of an allocation *)
Definition no_allocation_running (x : conc) : Prop := forall tid c pr, co_run x tid = Some (c, pr) -> allocates c = false.
