(** Correctness of the multiplicative division. *)
From Coq Require Import String ZArith List Bool Lia ZifyBool.
From Verif Require Import M_Base M_Libdivide P_Base P_SizeClass.
Import ListNotations.
Open Scope Z_scope.

(** Granlund-Montgomery *)
Lemma gm_div N d m n E : 0 < d -> 0 <= n < N -> 0 < E -> 
  N * E <= m * d <= N * E + E -> m * n / (N * E) = n / d.
Proof.
  intros Hd Hn HE Hm. symmetry.
  pose proof (Z.div_mod n d ltac:(lia)) as D. pose proof (Z.mod_pos_bound n d ltac:(lia)) as B.
  set (q := n / d) in *. set (r := n mod d) in *.
  assert (0 <= q) by (apply Z.div_pos; lia).
  apply Z.div_unique with (m * n - N * E * q); [|ring]. left.
  (* multiply by d: d*m*n = (N E + e) n *)
  assert (0 <= m) by nia.
  split.
  - (* m n >= N E q *)
    assert (m * n >= m * (d * q)) by nia. nia.
  - (* m n < N E (q+1) *)
    assert (d * (m * n) < d * (N * E * (q + 1))); [|nia].
    assert (m * d * n <= (N * E + E) * n) by nia.
    assert (N * E * n + E * n < N * E * n + N * E) by nia.
    assert (n + 1 <= d * (q + 1)) by nia.
    assert (N * E * (n + 1) <= N * E * (d * (q + 1))) by (apply Z.mul_le_mono_nonneg_l; nia).
    nia.
Qed.

Lemma pow2_test d W : 0 < d < 2 ^ W -> (Z.land d (wW W (d - 1)) = 0 <-> d = 2 ^ Z.log2 d).
Proof.
  intros Hd. unfold wW. rewrite Z.mod_small by lia.
  pose proof (Z.log2_spec d ltac:(lia)) as [H1 H2].
  pose proof (Z.log2_nonneg d). generalize dependent (Z.log2 d). intros L H1 H2 HL. rewrite Z.pow_succ_r in H2 by lia.
  split.
  - intros H0. destruct (Z.eq_dec d (2 ^ L)); [assumption|]. exfalso.
    assert (Z.testbit (Z.land d (d - 1)) L = true) as T.
    { rewrite Z.land_spec. rewrite andb_true_iff. split.
      - apply Z.testbit_true; [lia|]. replace (d / 2 ^ L) with 1; [reflexivity|].
        apply Z.div_unique with (d - 2 ^ L); lia.
      - apply Z.testbit_true; [lia|]. replace ((d - 1) / 2 ^ L) with 1; [reflexivity|].
        apply Z.div_unique with (d - 1 - 2 ^ L); lia. }
    rewrite H0, Z.bits_0 in T. discriminate.
  - intros ->. rewrite land_pow2m1 by lia. apply Z.mod_same. pose proof (pow2_pos L). lia.
Qed.

Lemma more_plain L : 0 <= L < 64 -> Z.land L LIBDIVIDE_ADD_MARKER = 0.
Proof.
  intros H. unfold LIBDIVIDE_ADD_MARKER. change 64 with (2 ^ 6).
  apply Z.bits_inj'. intros n Hn. rewrite Z.land_spec, Z.bits_0.
  rewrite Z.pow2_bits_eqb by lia. destruct (Z.eqb_spec 6 n) as [<-|]; [|now rewrite andb_false_r].
  rewrite andb_true_r. apply Z.testbit_false; [lia|]. rewrite Z.div_small; [reflexivity|]. lia.
Qed.
Lemma more_lor L : 0 <= L < 64 -> Z.lor L LIBDIVIDE_ADD_MARKER = L + 64.
Proof.
  intros H. rewrite <- Z.lxor_lor by (now apply more_plain).
  rewrite <- Z.add_nocarry_lxor by (now apply more_plain). reflexivity.
Qed.
Lemma more_add L : 0 <= L < 64 -> Z.land (L + 64) LIBDIVIDE_ADD_MARKER = 64.
Proof.
  intros H. rewrite <- more_lor by assumption. rewrite Z.land_lor_distr_l.
  rewrite more_plain by assumption. reflexivity.
Qed.

Lemma land_mask_add64 L W : (W = 32 \/ W = 64) -> 0 <= L < W -> Z.land (L + 64) (shift_mask W) = L.
Proof.
  intros HW HL. unfold shift_mask.
  assert (exists k, W = 2 ^ k /\ (k = 5 \/ k = 6)) as (k & -> & Hk).
  { destruct HW; subst; [exists 5 | exists 6]; auto. }
  rewrite land_pow2m1 by lia.
  destruct Hk; subst k.
  - change (2 ^ 5) with 32 in *. lia.
  - change (2 ^ 6) with 64 in *. lia.
Qed.

Theorem libdivide_correct W d n : (W = 32 \/ W = 64) -> 0 < d < 2 ^ W -> 0 <= n < 2 ^ W ->
  exists dv, libdivide_gen W d = Some dv /\ libdivide_do W n dv = n / d.
Proof.
  intros HW Hd Hn. unfold libdivide_gen.
  destruct (Z.eqb_spec d 0); [lia|].
  assert (HWp : 0 < W <= 64) by lia.
  set (L := Z.log2 d).
  pose proof (Z.log2_spec d ltac:(lia)) as [H1 H2]. fold L in H1, H2.
  assert (0 <= L) by apply Z.log2_nonneg.
  assert (L < W) by (apply Z.log2_lt_pow2; lia).
  rewrite Z.pow_succ_r in H2 by lia.
  pose proof (pow2_pos L ltac:(lia)) as HLp.
  pose proof (pow2_pos W ltac:(lia)) as HWpp.
  rewrite (w8_small L) by (change (2 ^ 8) with 256; lia).
  rewrite Z.shiftl_1_l.
  assert (2 ^ L < 2 ^ W) by (apply Z.pow_lt_mono_r; lia).
  assert (wW W (2 ^ L) = 2 ^ L) as EB by (unfold wW; apply Z.mod_small; lia). rewrite EB.
  destruct (Z.eqb_spec (Z.land d (wW W (d - 1))) 0) as [E|E].
  { (* power of two *)
    apply (proj1 (pow2_test d W ltac:(lia))) in E. fold L in E.
    eexists; split; [reflexivity|].
    unfold libdivide_do. cbn [d_magic d_more]. rewrite Z.eqb_refl.
    rewrite Z.shiftr_div_pow2 by lia. congruence. }
  assert (d <> 2 ^ L) as Hnp by (intros Hx; apply E; apply (proj2 (pow2_test d W ltac:(lia))); exact Hx).
  clear E.
  unfold div_2W_W. rewrite Z.add_0_r.
  set (A := 2 ^ W) in *. set (B := 2 ^ L) in *.
  replace (B * A) with (A * B) by ring.
  set (m0 := A * B / d). set (rem := (A * B) mod d).
  pose proof (Z.div_mod (A * B) d ltac:(lia)) as D. fold m0 rem in D.
  pose proof (Z.mod_pos_bound (A * B) d ltac:(lia)) as R. fold rem in R.
  assert (0 <= m0) by (apply Z.div_pos; nia).
  assert (m0 < A) by (apply Z.div_lt_upper_bound; nia).
  assert (wW W (A * B - wW W m0 * d) = rem) as Er.
  { unfold wW. fold A. rewrite (Z.mod_small m0) by lia. replace (A * B - m0 * d) with rem by lia. apply Z.mod_small. lia. }
  rewrite Er.
  assert (wW W m0 = m0) as Em by (unfold wW; apply Z.mod_small; lia). rewrite Em.
  assert (wW W (d - rem) = d - rem) as Ee by (unfold wW; apply Z.mod_small; fold A; lia). rewrite Ee.
  destruct (Z.ltb_spec (d - rem) B) as [Hlt|Hge].
  - (* this power works *)
    assert (m0 + 1 < A).
    { destruct (Z.eq_dec (m0 + 1) A) as [EA|]; [|lia]. exfalso. nia. }
    eexists; split; [reflexivity|].
    unfold libdivide_do. cbn [d_magic d_more].
    assert (wW W (1 + m0) = m0 + 1) as -> by (unfold wW; fold A; rewrite Z.mod_small; lia).
    destruct (Z.eqb_spec (m0 + 1) 0); [lia|].
    rewrite more_plain by lia. cbn [Z.eqb negb].
    unfold mullhi. rewrite !Z.shiftr_div_pow2 by lia. fold A B.
    unfold wW. fold A. rewrite Z.mod_small.
    2:{ split; [apply Z.div_pos; nia|]. apply Z.div_lt_upper_bound; nia. }
    rewrite Z.div_div by lia.
    apply gm_div; nia.
  - (* general algorithm *)
    set (twice := wW W (rem + rem)).
    set (bit := if 2 * rem <? d then 0 else 1).
    assert ((d <=? twice) || (twice <? rem) = (d <=? 2 * rem)) as Eb.
    { unfold twice, wW. fold A. destruct (Z_lt_ge_dec (rem + rem) A).
      - rewrite Z.mod_small by lia. lia.
      - assert ((rem + rem) mod A = rem + rem - A) as ->
          by (symmetry; apply Z.mod_unique with 1; lia). lia. }
    rewrite Eb.
    set (m1 := A * B * 2 / d).
    assert (m1 = 2 * m0 + (if d <=? 2 * rem then 1 else 0)) as Em1.
    { unfold m1. symmetry. destruct (Z.leb_spec d (2 * rem)).
      - apply Z.div_unique with (2 * rem - d); lia.
      - apply Z.div_unique with (2 * rem); lia. }
    assert (A <= m1) by (unfold m1; apply Z.div_le_lower_bound; nia).
    assert (m1 < 2 * A) by (unfold m1; apply Z.div_lt_upper_bound; nia).
    pose proof (Z.div_mod (A * B * 2) d ltac:(lia)) as D1. fold m1 in D1.
    pose proof (Z.mod_pos_bound (A * B * 2) d ltac:(lia)) as R1.
    assert (m1 + 1 < 2 * A).
    { destruct (Z.eq_dec (m1 + 1) (2 * A)) as [EA|]; [|lia]. exfalso. nia. }
    eexists; split; [reflexivity|].
    unfold libdivide_do. cbn [d_magic d_more].
    set (pm := wW W (m0 + m0)).
    assert (wW W (1 + (if d <=? 2 * rem then wW W (pm + 1) else pm)) = m1 + 1 - A) as ->.
    { unfold pm, wW. fold A. destruct (d <=? 2 * rem).
      - rewrite Zplus_mod_idemp_l, Zplus_mod_idemp_r.
        symmetry. apply Z.mod_unique with 1; lia.
      - rewrite Zplus_mod_idemp_r. symmetry. apply Z.mod_unique with 1; lia. }
    destruct (Z.eqb_spec (m1 + 1 - A) 0); [lia|].
    rewrite more_lor by lia. rewrite w8_small by (change (2^8) with 256; lia).
    rewrite more_add by lia. cbn [Z.eqb negb].
    rewrite land_mask_add64 by lia.
    unfold mullhi. rewrite !Z.shiftr_div_pow2 by lia. fold A B.
    set (mg := m1 + 1 - A).
    set (q := mg * n / A).
    assert (0 <= q) by (apply Z.div_pos; nia).
    assert (q <= n). { apply Z.lt_succ_r. apply Z.div_lt_upper_bound; nia. }
    unfold wW. fold A. rewrite (Z.mod_small q) by lia. rewrite (Z.mod_small (n - q)) by lia.
    change (2 ^ 1) with 2.
    rewrite Z.mod_small by lia.
    replace ((n - q) / 2 + q) with ((n + q) / 2) by lia.
    replace ((n + q) / 2 / B) with ((n + q) / (2 * B)) by (rewrite Z.div_div by lia; reflexivity).
    replace (n + q) with ((m1 + 1) * n / A).
    2:{ unfold q, mg. replace ((m1 + 1) * n) with ((m1 + 1 - A) * n + n * A) by ring.
        rewrite Z.div_add by lia. lia. }
    rewrite Z.div_div by lia.
    apply gm_div; nia.
Qed.
