(** C34: multiplicative division is exact. *)
From Coq Require Import ZArith List Lia.
From Verif Require Import M_Base M_Libdivide P_Libdivide P_Libdivide2.
Open Scope Z_scope.

(** for both widths, every non-zero divisor and every numerator *)
Theorem C34_division_exact : forall W d n : Z,
  (W = 32 \/ W = 64) -> 0 < d < 2 ^ W -> 0 <= n < 2 ^ W ->
  exists dv, libdivide_gen W d = Some dv /\ libdivide_do W n dv = n / d.
Proof. exact libdivide_correct. Qed.
Print Assumptions C34_division_exact.

(** the portable 128/64 division used to compute the reciprocals *)
Theorem C34_soft_division_exact : forall numhi numlo den : Z,
  0 <= numhi < den -> 0 <= numlo < 2 ^ 64 -> den < 2 ^ 64 ->
  soft_128_div_64 numhi numlo den =
    ((numhi * 2 ^ 64 + numlo) / den, (numhi * 2 ^ 64 + numlo) mod den).
Proof. exact soft_128_div_64_correct. Qed.
Print Assumptions C34_soft_division_exact.

Example C34_case : exists dv, libdivide_u32_gen 48 = Some dv /\ d_magic dv <> 0 /\ libdivide_u32_do 4000 dv = 83.
Proof. eexists. split; [vm_compute; reflexivity|]. split; vm_compute; [discriminate|reflexivity]. Qed.
