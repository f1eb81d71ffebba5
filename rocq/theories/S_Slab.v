(** Specification vocabulary for slabs (no model functions). *)
From Coq Require Import ZArith List Bool.
Import ListNotations.
Open Scope Z_scope.

(** slot j of a slab is occupied according to its bitmap of 64-bit words *)
Definition occupied (bm : list Z) (j : Z) : bool := Z.testbit (nth (Z.to_nat (j / 64)) bm 0) (j mod 64).
(** a bitmap is four 64-bit words *)
Definition bitmap (bm : list Z) : Prop := length bm = 4%nat /\ Forall (fun w => 0 <= w < 2 ^ 64) bm.
