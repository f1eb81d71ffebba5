(** Specification: which address space may be in use. *)
From Coq Require Import ZArith List.
From Verif Require Import M_Base M_Config M_OS M_Slab M_Region M_Api M_Hist S_Heap S_Class S_Guard.
Open Scope Z_scope.

(** some earlier realloc of [p] returned [p] itself *)
Definition resized_in_place (t : trace) (p : Z) : Prop := exists tid n, In (mkEv tid (ORealloc p n) (APtr p)) t.
(** address [x] belongs to a block larger than every size class that the program holds, or to the inaccessible guards
    around it; the guards are no larger than the size of the block allows, unless realloc has changed that size in place *)
Definition of_large_block (g : config) (t : trace) (s : state) (x : Z) : Prop :=
  exists p c n gd, In (p, c) (live t) /\ ~ in_small_area s p /\ usable_size g s p n /\
    guarded s (p - gd) p /\ guarded s (page_up (p + n)) (page_up (p + n) + gd) /\ p - gd <= x < page_up (p + n) + gd /\
    (gd <= guard_limit g n \/ resized_in_place t p).
(** the program had the block at [p] when the events were [t0] and has held it ever since, up to [t] *)
Definition held_since (p : Z) (t0 t : trace) : Prop :=
  exists l, t = (l ++ t0)%list /\ forall l1 l2, l = (l1 ++ l2)%list -> exists c, In (p, c) (live (l2 ++ t0)).
(** the block at [p] had [n] usable bytes at some time since the program got it *)
Definition once_of_size (g : config) (W : store_rule) (o : os) (t : trace) (s : state) (p n : Z) : Prop :=
  exists t0 s0, history g W o t0 s0 /\ continues g W t0 s0 t s /\ held_since p t0 t /\ usable_size g s0 p n.
(** [x] lies in one of the ranges *)
Definition in_ranges (l : list (Z * Z)) (x : Z) : Prop := exists r, In r l /\ fst r <= x < snd r.
