(** Specification of the size class scheme, independent of the tables. *)
From Coq Require Import ZArith List.
Import ListNotations.
Open Scope Z_scope.

(** [least P n r]: r is the smallest value satisfying P that is at least n *)
Definition least (P : Z -> Prop) (n r : Z) : Prop :=
  P r /\ n <= r /\ forall r', P r' -> n <= r' -> r <= r'.

(** geometric classes: four per power of two *)
Definition geometric (x : Z) : Prop := exists k q, 0 <= k /\ 5 <= q <= 8 /\ x = q * 2 ^ k.
(** page multiples *)
Definition page_multiple (x : Z) : Prop := exists k, x = k * 4096.

(** slab size classes up to [max]: 0, the multiples of 16 up to 128, then the
    geometric classes *)
Definition slab_class (max x : Z) : Prop :=
  x = 0 \/ (exists k, 1 <= k <= 8 /\ x = 16 * k) \/ (128 < x <= max /\ geometric x).
