(** C31: bounded draws. *)
From Coq Require Import String ZArith List Bool Lia.
From Verif Require Import M_Base M_OS M_Random S_Random P_Random2 P_Random3 T_C30.
Import ListNotations.
Open Scope Z_scope.

(** The 64-bit function draws raw values until the first accepted one and returns its
    image; the acceptance test and image are given here as plain arithmetic. *)
Theorem C31_u64_is_rejection_sampling : forall (bound : Z) (s : rstate) (v : Z) (s' : rstate),
  0 < bound < 2 ^ 64 -> rng_reachable s ->
  get_random_u64_uniform bound s = Ok (v, s') ->
  exists rejected x,
    raw_draws (fun s => match get_random_u64 s with Ok r => Some r | Fail _ => None end) s (rejected ++ [x]) s' /\
    Forall (fun z => ((2 ^ 64 mod bound) <=? (z * bound) mod 2 ^ 64) = false) rejected /\
    ((2 ^ 64 mod bound) <=? (x * bound) mod 2 ^ 64) = true /\
    v = x * bound / 2 ^ 64.
Proof. exact (fun bound s v s' Hb R => u64_uniform_draws bound s v s' Hb (reachable_ok s R)). Qed.
Print Assumptions C31_u64_is_rejection_sampling.

(** every value below the bound is the image of exactly 2^64 / bound accepted raw values *)
Theorem C31_u64_counts : forall bound v : Z,
  0 < bound <= 2 ^ 64 -> 0 <= v < bound ->
  count (fun x => ((2 ^ 64 mod bound) <=? (x * bound) mod 2 ^ 64) && (x * bound / 2 ^ 64 =? v)) (2 ^ 64)
  = 2 ^ 64 / bound.
Proof. exact (lemire_count (2 ^ 64)). Qed.
Print Assumptions C31_u64_counts.

Theorem C31_u64_unbiased : forall bound : Z, 0 < bound < 2 ^ 64 ->
  unbiased 64 bound (fun x => (2 ^ 64 mod bound) <=? (x * bound) mod 2 ^ 64) (fun x => x * bound / 2 ^ 64).
Proof. exact u64_unbiased. Qed.
Print Assumptions C31_u64_unbiased.

(** The 16-bit function never rejects: its result is the image of one raw draw. *)
Theorem C31_u16_never_rejects : forall (bound : Z) (s : rstate) (v : Z) (s' : rstate),
  0 <= bound < 2 ^ 16 -> rng_reachable s ->
  get_random_u16_uniform bound s = Ok (v, s') ->
  exists x, get_random_u16 s = Ok (x, s') /\ 0 <= x < 2 ^ 16 /\ v = x * bound / 2 ^ 16.
Proof. exact u16_single_draw. Qed.
Print Assumptions C31_u16_never_rejects.

(** hence it is biased: with bound 3 the value 0 has one raw value more than 1 *)
Theorem C31_u16_unbiased_refuted : exists bound : Z, 0 < bound < 2 ^ 16 /\
  ~ unbiased 16 bound (fun _ => true) (fun x => x * bound / 2 ^ 16).
Proof. exact u16_biased. Qed.
Print Assumptions C31_u16_unbiased_refuted.

(** ... but never by more than one raw value of 65536 *)
Theorem C31_u16_bias_bounded_partial : forall bound v : Z,
  0 < bound <= 2 ^ 16 -> 0 <= v < bound ->
  2 ^ 16 / bound <= count (fun x => x * bound / 2 ^ 16 =? v) (2 ^ 16) <= 2 ^ 16 / bound + 1.
Proof. exact u16_count. Qed.
Print Assumptions C31_u16_bias_bounded_partial.

Example C31_case : rng_reachable ex_rng /\ exists v s', get_random_u16_uniform 1000 ex_rng = Ok (v, s').
Proof.
  split; [exact (proj1 C30_case)|].
  destruct (get_random_u16_uniform 1000 ex_rng) as [[v s']|] eqn:E; vm_compute in E; [|discriminate]. eauto.
Qed.
