(** C02: a small request is rounded to the smallest size class that holds it. *)
From Coq Require Import ZArith List Lia.
From Verif Require Import M_Base M_Config M_SizeClass S_SizeClass P_SizeClass P_SizeClass2.
Open Scope Z_scope.

(** the table in the code is exactly the documented scheme *)
Theorem C02_table_is_scheme : forall (g : config) (x : Z),
  In x (size_classes g) <-> slab_class (max_slab_size_class g) x.
Proof. exact table_spec. Qed.
Print Assumptions C02_table_is_scheme.

(** for every request: smallest class, and the class number points at it in the table *)
Theorem C02_rounding_exact_and_minimal : forall (g : config) (n : Z),
  0 <= n <= max_slab_size_class g ->
  let info := get_size_info n in
  least (slab_class (max_slab_size_class g)) n (si_size info) /\
  nth_error (size_classes g) (Z.to_nat (si_class info)) = Some (si_size info) /\
  0 <= si_class info.
Proof. exact small_rounding. Qed.
Print Assumptions C02_rounding_exact_and_minimal.

(** the same with an alignment up to a page *)
Theorem C02_aligned_rounding_exact_and_minimal : forall (g : config) (n k : Z),
  0 <= k <= 12 -> 0 <= n <= max_slab_size_class g ->
  exists info, get_size_info_align g n (2 ^ k) = Some info /\
    least (fun x => slab_class (max_slab_size_class g) x /\ 0 < x /\ (2 ^ k | x)) n (si_size info) /\
    nth_error (size_classes g) (Z.to_nat (si_class info)) = Some (si_size info) /\
    0 <= si_class info.
Proof. exact small_rounding_aligned. Qed.
Print Assumptions C02_aligned_rounding_exact_and_minimal.

(** above 64 bytes less than 20% of the class is wasted (also for large classes) *)
Theorem C02_waste_below_20_percent : forall n : Z,
  64 < n <= 7 * 2 ^ 61 ->
  n <= si_size (get_size_info n) /\
  5 * (si_size (get_size_info n) - n) < si_size (get_size_info n).
Proof. exact gsi_waste. Qed.
Print Assumptions C02_waste_below_20_percent.

(** non-vacuity *)
Example C02_case : 0 <= 1000 <= max_slab_size_class default_config /\
  get_size_info 1000 = mkSizeInfo 1024 20 /\ get_size_info 1025 = mkSizeInfo 1280 21 /\
  get_size_info_align default_config 65 64 = Some (mkSizeInfo 128 8).
Proof. vm_compute. repeat split; discriminate. Qed.
