(** C03: rounding of large requests. *)
From Coq Require Import ZArith List Lia.
From Verif Require Import M_Base M_Config M_SizeClass S_SizeClass P_SizeClass P_SizeClass2.
Open Scope Z_scope.

(** the rounded size is the least class (or page multiple) that holds the request,
    and 0 exactly when that value needs more than 64 bits *)
Theorem C03_large_rounding_exact : forall (g : config) (n : Z),
  16384 < n < 2 ^ 64 ->
  exists t, least (if LARGE_SIZE_CLASSES g then geometric else page_multiple) n t /\
    get_large_size_class g n = if t <? 2 ^ 64 then t else 0.
Proof. exact large_rounding. Qed.
Print Assumptions C03_large_rounding_exact.

(** never too small, a page multiple, at most 25% more; 0 only for huge requests *)
Theorem C03_large_rounding_bounds : forall (g : config) (n : Z),
  16384 < n < 2 ^ 64 ->
  let r := get_large_size_class g n in
  (r = 0 <-> (if LARGE_SIZE_CLASSES g then 7 * 2 ^ 61 < n else 2 ^ 64 - 4096 < n)) /\
  0 <= r < 2 ^ 64 /\ r mod 4096 = 0 /\
  (r <> 0 -> n <= r /\ 4 * (r - n) <= n).
Proof. exact large_class_all. Qed.
Print Assumptions C03_large_rounding_bounds.

Example C03_case : 16384 < 131073 < 2 ^ 64 /\
  get_large_size_class default_config 131073 = 163840 /\
  get_large_size_class default_config (7 * 2 ^ 61 + 1) = 0 /\
  get_large_size_class default_config (7 * 2 ^ 61) = 7 * 2 ^ 61.
Proof. vm_compute. repeat split. Qed.
