(** Specification of slot tagging: events of one slab and what they determine. *)
From Coq Require Import ZArith List Bool.
From Verif Require Import M_Base M_Mte.
Import ListNotations.
Open Scope Z_scope.

(** newest first: a slot was allocated and its pointer got a tag; a slot was freed; the
    (empty) slab was given back to the kernel *)
Inductive tevent : Type := TAlloc (slot tag : Z) | TFree (slot : Z) | TPurge.
(** the tag of the last allocation of a slot, 0 if there was none *)
Fixpoint last_tag (l : list tevent) (i : Z) : Z :=
  match l with
  | [] => 0
  | TAlloc j t :: l => if j =? i then t else last_tag l i
  | _ :: l => last_tag l i
  end.
(** the slot is allocated *)
Fixpoint in_use (l : list tevent) (i : Z) : bool :=
  match l with
  | [] => false
  | TAlloc j _ :: l => if j =? i then true else in_use l i
  | TFree j :: l => if j =? i then false else in_use l i
  | TPurge :: l => in_use l i
  end.
(** the IRG instruction: a 4-bit tag outside the mask, unless all tags are excluded *)
Definition irg_ok (irg : Z -> Z) : Prop := forall mask, 0 <= irg mask < 16 /\ ((exists t, 0 <= t < 16 /\ Z.testbit mask t = false) -> Z.testbit mask (irg mask) = false).
(** slots of a slab are numbered 0..255; [irgs] are the hardware's answers; the pointers
    are arbitrary *)
Inductive tagged : list tevent -> tags -> Prop :=
| tagged_new : tagged [] tags_zero
| tagged_alloc l t irg slot p q t' : tagged l t -> irg_ok irg -> 0 <= slot < 256 -> 0 <= p < 2 ^ 56 ->
    tag_and_clear_slab_slot irg slot p t = Ok (q, t') -> tagged (TAlloc slot (get_pointer_tag q) :: l) t'
| tagged_free l t slot p : tagged l t -> 0 <= slot < 256 -> 0 <= p < 2 ^ 56 -> tagged (TFree slot :: l) (tag_free_slot slot p t)
| tagged_purge l t : tagged l t -> (forall i, in_use l i = false) -> tagged (TPurge :: l) (tag_purge_slab t).
(** how often a slot was allocated in a list of events *)
Fixpoint reallocated (l : list tevent) (i : Z) : nat :=
  match l with [] => 0%nat | TAlloc j _ :: l => if j =? i then S (reallocated l i) else reallocated l i | _ :: l => reallocated l i end.
