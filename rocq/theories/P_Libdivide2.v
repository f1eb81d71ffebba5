(** Correctness of the software 128/64 division. *)
From Coq Require Import String ZArith List Bool Lia ZifyBool.
From Verif Require Import M_Base M_Libdivide P_Base P_SizeClass.
Import ListNotations.
Open Scope Z_scope.
Ltac Zify.zify_post_hook ::= idtac.

Lemma lor_add_shift hi lo s : 0 <= s -> 0 <= lo < 2 ^ s -> Z.lor (hi * 2 ^ s) lo = hi * 2 ^ s + lo.
Proof.
  intros Hs Hl.
  assert (Z.land (hi * 2 ^ s) lo = 0) as E.
  { apply Z.bits_inj'. intros n Hn. rewrite Z.land_spec, Z.bits_0.
    destruct (Z.lt_ge_cases n s).
    - rewrite Z.mul_pow2_bits_low by lia. reflexivity.
    - rewrite <- (Z.mod_small lo (2 ^ s)) by lia. rewrite Z.mod_pow2_bits_high by lia. apply andb_false_r. }
  rewrite <- Z.lxor_lor by exact E. rewrite <- Z.add_nocarry_lxor by exact E. reflexivity.
Qed.

(** one step of the schoolbook division in base 2^32 *)
Definition knuth_step (den den1 den0 numhi num : Z) : Z * Z :=
  let b := 2 ^ 32 in
  let qhat := numhi / den1 in
  let rhat := numhi mod den1 in
  let c1 := w64 (qhat * den0) in
  let c2 := w64 (rhat * b + num) in
  let qhat := if c2 <? c1 then w64 (qhat - (if den <? w64 (c1 - c2) then 2 else 1)) else qhat in
  let q := w32 qhat in
  (q, w64 (numhi * b + num - q * den)).

Lemma knuth_step_ok den den1 den0 u v :
  2 ^ 63 <= den < 2 ^ 64 -> den = den1 * 2 ^ 32 + den0 -> 0 <= den0 < 2 ^ 32 ->
  0 <= u < den -> 0 <= v < 2 ^ 32 ->
  knuth_step den den1 den0 u v = ((u * 2 ^ 32 + v) / den, (u * 2 ^ 32 + v) mod den).
Proof.
  intros Hd Ed H0 Hu Hv. unfold knuth_step.
  set (b := 2 ^ 32) in *. assert (b = 4294967296) as Eb by reflexivity.
  assert (2 ^ 64 = b * b) as E64 by reflexivity. assert (2 * 2 ^ 63 = b * b) as E63 by reflexivity.
  assert (b <= 2 * den1 < 2 * b) as Hd1 by nia.
  pose proof (Z.div_mod u den1 ltac:(lia)) as D. pose proof (Z.mod_pos_bound u den1 ltac:(lia)) as R.
  set (qh := u / den1) in *. set (rh := u mod den1) in *.
  assert (0 <= qh) by (apply Z.div_pos; lia).
  assert (qh <= b + 1). { apply Z.lt_succ_r. apply Z.div_lt_upper_bound; nia. }
  rewrite (w64_small (qh * den0)) by nia.
  rewrite (w64_small (rh * b + v)) by nia.
  set (c1 := qh * den0). set (c2 := rh * b + v).
  assert (u * b + v - qh * den = c2 - c1) as K by (unfold c1, c2; nia).
  assert (0 <= c1 < b * b) by (unfold c1; nia).
  assert (0 <= c2 < den) by (unfold c2; nia).
  assert (exists q, 0 <= q < b /\ 
    (if c2 <? c1 then w64 (qh - (if den <? w64 (c1 - c2) then 2 else 1)) else qh) = q /\
    0 <= u * b + v - q * den < den) as (q & Hq & Eq & Hr).
  { assert (forall q, 0 <= u * b + v - q * den < den -> 0 <= q < b) as Hrange by (intros; nia).
    destruct (Z.ltb_spec c2 c1).
    - rewrite (w64_small (c1 - c2)) by lia.
      destruct (Z.ltb_spec den (c1 - c2)).
      + assert (0 <= u * b + v - (qh - 2) * den < den) as Hx by lia.
        exists (qh - 2). pose proof (Hrange _ Hx). rewrite w64_small by lia. auto.
      + assert (0 <= u * b + v - (qh - 1) * den < den) as Hx by lia.
        exists (qh - 1). pose proof (Hrange _ Hx). rewrite w64_small by lia. auto.
    - assert (0 <= u * b + v - qh * den < den) as Hx by lia.
      exists qh. pose proof (Hrange _ Hx). auto. }
  rewrite Eq. rewrite (w32_small q) by (fold b; lia). rewrite w64_small by lia.
  f_equal.
  - apply Z.div_unique with (u * b + v - q * den); lia.
  - apply Z.mod_unique with q; lia.
Qed.

Theorem soft_128_div_64_correct numhi numlo den :
  0 <= numhi < den -> 0 <= numlo < 2 ^ 64 -> den < 2 ^ 64 ->
  soft_128_div_64 numhi numlo den =
    ((numhi * 2 ^ 64 + numlo) / den, (numhi * 2 ^ 64 + numlo) mod den).
Proof.
  intros Hh Hl Hd. unfold soft_128_div_64.
  destruct (Z.leb_spec den numhi); [lia|].
  set (s := 63 - Z.log2 den).
  pose proof (Z.log2_spec den ltac:(lia)) as [L1 L2]. pose proof (Z.log2_nonneg den).
  assert (Z.log2 den < 64) by (apply Z.log2_lt_pow2; lia).
  rewrite Z.pow_succ_r in L2 by lia.
  assert (0 <= s <= 63) as Hs by lia.
  assert (2 ^ Z.log2 den * 2 ^ s = 2 ^ 63) as Ep by (rewrite <- Z.pow_add_r by lia; f_equal; lia).
  pose proof (pow2_pos s ltac:(lia)) as Hp.
  rewrite !Z.shiftl_mul_pow2 by lia.
  assert (2 ^ 63 <= den * 2 ^ s < 2 ^ 64) as Hden.
  { split; [rewrite <- Ep; nia|]. change (2 ^ 64) with (2 * 2 ^ 63). rewrite <- Ep. nia. }
  rewrite (w64_small (den * 2 ^ s)) by lia.
  rewrite (w64_small (numhi * 2 ^ s)) by nia.
  set (D := den * 2 ^ s) in *.
  set (NH := Z.lor (numhi * 2 ^ s)
       (Z.land (Z.shiftr numlo (Z.land (- s) 63)) (if 0 <? s then 2 ^ 64 - 1 else 0))).
  set (NL := w64 (numlo * 2 ^ s)).
  assert (0 <= NL < 2 ^ 64) as HNL by apply w64_range.
  assert (NH * 2 ^ 64 + NL = (numhi * 2 ^ 64 + numlo) * 2 ^ s /\ 0 <= NH < D) as [EN HNH].
  { destruct (Z.eq_dec s 0) as [E0|].
    - unfold NH, NL. rewrite E0 in *. cbn [Z.ltb Z.compare]. rewrite Z.land_0_r, Z.lor_0_r.
      change (2 ^ 0) with 1 in *. rewrite w64_small by lia. split; [lia|]. unfold D. rewrite E0. change (2 ^ 0) with 1. lia.
    - assert (NH = numhi * 2 ^ s + numlo / 2 ^ (64 - s)) as EH.
      { unfold NH. replace (0 <? s) with true by lia.
        replace (Z.land (- s) 63) with (64 - s).
        2:{ change 63 with (2 ^ 6 - 1). rewrite land_pow2m1 by lia. change (2 ^ 6) with 64. apply Z.mod_unique with (-1); lia. }
        rewrite Z.shiftr_div_pow2 by lia.
        assert (2 ^ (64 - s) * 2 ^ s = 2 ^ 64) as Ex by (rewrite <- Z.pow_add_r by lia; f_equal; lia).
        pose proof (pow2_pos (64 - s) ltac:(lia)).
        assert (0 <= numlo / 2 ^ (64 - s) < 2 ^ s) by (split; [apply Z.div_pos; lia | apply Z.div_lt_upper_bound; lia]).
        rewrite land_pow2m1 by lia. rewrite (Z.mod_small (numlo / _)).
        2:{ assert (2 ^ s <= 2 ^ 63) by (apply Z.pow_le_mono_r; lia). change (2 ^ 64) with (2 * 2 ^ 63). lia. }
        apply lor_add_shift; lia. }
      assert (2 ^ (64 - s) * 2 ^ s = 2 ^ 64) as Ex by (rewrite <- Z.pow_add_r by lia; f_equal; lia).
      pose proof (pow2_pos (64 - s) ltac:(lia)) as Hp2.
      set (P := 2 ^ (64 - s)) in *. set (S2 := 2 ^ s) in *.
      pose proof (Z.div_mod numlo P ltac:(lia)) as Dv. pose proof (Z.mod_pos_bound numlo P ltac:(lia)) as Bv.
      assert (NL = (numlo mod P) * S2) as EL.
      { unfold NL, w64. symmetry. apply Z.mod_unique with (numlo / P); [left; nia|]. rewrite <- Ex. nia. }
      assert (0 <= numlo / P < S2) by (split; [apply Z.div_pos; lia | apply Z.div_lt_upper_bound; lia]).
      split.
      + rewrite EH, EL. rewrite <- Ex. nia.
      + rewrite EH. unfold D. nia. }
  set (b := 2 ^ 32) in *. assert (2 ^ 64 = b * b) as E64 by reflexivity.
  assert (w32 (Z.shiftr NL 32) = NL / b) as E1.
  { rewrite Z.shiftr_div_pow2 by lia. apply w32_small. fold b. split; [apply Z.div_pos; lia|]. apply Z.div_lt_upper_bound; lia. }
  assert (w32 (Z.land NL (b - 1)) = NL mod b) as E0.
  { unfold b. rewrite land_pow2m1 by lia. apply w32_small. apply Z.mod_pos_bound. lia. }
  assert (w32 (Z.shiftr D 32) = D / b) as E1d.
  { rewrite Z.shiftr_div_pow2 by lia. apply w32_small. fold b. split; [apply Z.div_pos; lia|]. apply Z.div_lt_upper_bound; lia. }
  assert (w32 (Z.land D (b - 1)) = D mod b) as E0d.
  { unfold b. rewrite land_pow2m1 by lia. apply w32_small. apply Z.mod_pos_bound. lia. }
  rewrite E1, E0, E1d, E0d.
  pose proof (Z.div_mod D b ltac:(unfold b; lia)) as DD. pose proof (Z.mod_pos_bound D b ltac:(unfold b; lia)) as BD.
  pose proof (Z.div_mod NL b ltac:(unfold b; lia)) as DN. pose proof (Z.mod_pos_bound NL b ltac:(unfold b; lia)) as BN.
  assert (0 <= NL / b < b) by (split; [apply Z.div_pos; lia | apply Z.div_lt_upper_bound; lia]).
  assert (forall u v, 0 <= u < D -> 0 <= v < b -> knuth_step D (D / b) (D mod b) u v = ((u * b + v) / D, (u * b + v) mod D)) as KS.
  { intros u v Hu Hv. apply knuth_step_ok; try assumption; try lia. }
  change (let '(q1, rem) := knuth_step D (D / b) (D mod b) NH (NL / b) in
          let '(q0, rem0) := knuth_step D (D / b) (D mod b) rem (NL mod b) in
          (Z.lor (w64 (q1 * b)) q0, Z.shiftr rem0 s) =
          ((numhi * 2 ^ 64 + numlo) / den, (numhi * 2 ^ 64 + numlo) mod den)).
  rewrite KS by lia.
  set (u1 := NH * b + NL / b).
  pose proof (Z.div_mod u1 D ltac:(lia)) as D1. pose proof (Z.mod_pos_bound u1 D ltac:(lia)) as B1.
  set (q1 := u1 / D) in *. set (r1 := u1 mod D) in *.
  rewrite KS by lia.
  set (u0 := r1 * b + NL mod b).
  pose proof (Z.div_mod u0 D ltac:(lia)) as D0. pose proof (Z.mod_pos_bound u0 D ltac:(lia)) as B0.
  set (q0 := u0 / D) in *. set (r0 := u0 mod D) in *.
  assert (forall u v, 0 <= u < D -> 0 <= v < b -> 0 <= (u * b + v) / D < b) as QB.
  { intros u v Hu Hv. assert (0 < D) by lia. assert (0 < b) by (unfold b; lia). clear -Hu Hv H2 H3 H4.
    split; [apply Z.div_pos; nia|]. apply Z.div_lt_upper_bound; [lia|]. nia. }
  assert (0 <= q1 < b) as Hq1 by (apply QB; lia).
  assert (0 <= q0 < b) as Hq0 by (apply QB; lia).
  rewrite w64_small by nia.
  unfold b at 1. rewrite lor_add_shift by (fold b; lia). fold b.
  set (N := numhi * (b * b) + numlo) in *. rewrite E64 in *. 
  assert (N * 2 ^ s = (q1 * b + q0) * D + r0) as EE by nia.
  pose proof (Z.div_mod N den ltac:(lia)) as DV. pose proof (Z.mod_pos_bound N den ltac:(lia)) as BV.
  assert (r0 = (N - (q1 * b + q0) * den) * 2 ^ s) as Er by (unfold D in *; nia).
  assert (0 <= N - (q1 * b + q0) * den < den) as Hq.
  { unfold D in B0. rewrite Er in B0. nia. }
  f_equal.
  - apply Z.div_unique with (N - (q1 * b + q0) * den); [now left|]. lia.
  - rewrite Z.shiftr_div_pow2 by lia. rewrite Er, Z.div_mul by lia.
    apply Z.mod_unique with (q1 * b + q0); lia.
Qed.
