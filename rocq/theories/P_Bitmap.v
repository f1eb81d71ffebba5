(** Proofs about the slab bitmaps and slot selection. *)
From Coq Require Import String ZArith List Bool Lia ZifyBool.
From Verif Require Import M_Base M_Config M_SizeClass M_OS M_Random M_Slab P_Base P_SizeClass P_Random.
Import ListNotations.
Open Scope Z_scope.

(** a bitmap: four 64-bit words *)
Definition bm_ok (bm : list Z) : Prop :=
  zlen bm = 4 /\ forall i, 0 <= i < 4 -> 0 <= word64 bm i < 2 ^ 64.

Lemma word_lset bm i j x : 0 <= i < zlen bm -> word64 (lset bm i x) j = if j =? i then x else word64 bm j.
Proof. intros. unfold word64. rewrite lget_lset by lia. destruct (j =? i); auto. Qed.

Lemma bm_get_bit bm i : 0 <= i < 256 -> bm_get bm i = Z.testbit (word64 bm (i / 64)) (i mod 64).
Proof.
  intros Hi. unfold bm_get. replace (i - i / 64 * 64) with (i mod 64) by lia.
  rewrite Z.land_comm. replace 1 with (Z.ones 1) by reflexivity.
  rewrite Z.land_comm, Z.land_ones by lia. change (2 ^ 1) with 2.
  rewrite <- Z.bit0_mod, Z.shiftr_spec, Z.add_0_l by lia.
  destruct (Z.testbit _ _); reflexivity.
Qed.

Lemma testbit_range x k : 0 <= x < 2 ^ 64 -> 64 <= k -> Z.testbit x k = false.
Proof.
  intros H K. rewrite <- (Z.mod_small x (2 ^ 64)) by lia. now rewrite Z.mod_pow2_bits_high by lia.
Qed.
Lemma range_of_bits x : 0 <= x -> (forall k, 64 <= k -> Z.testbit x k = false) -> 0 <= x < 2 ^ 64.
Proof.
  intros H B. replace x with (x mod 2 ^ 64); [apply Z.mod_pos_bound; lia|].
  apply Z.bits_inj'. intros n Hn. destruct (Z.lt_ge_cases n 64).
  - now rewrite Z.mod_pow2_bits_low by lia.
  - rewrite Z.mod_pow2_bits_high by lia. symmetry. now apply B.
Qed.
Lemma ones64 k : 0 <= k < 64 -> Z.testbit SIZE_MAX k = true.
Proof. intros. unfold SIZE_MAX. rewrite ones_eq by lia. now rewrite Z.ones_spec_low by lia. Qed.
Lemma all_bits x : 0 <= x < 2 ^ 64 -> (forall k, 0 <= k < 64 -> Z.testbit x k = true) -> x = SIZE_MAX.
Proof.
  intros H B. apply Z.bits_inj'. intros n Hn. destruct (Z.lt_ge_cases n 64).
  - rewrite ones64 by lia. apply B. lia.
  - rewrite !testbit_range by (unfold SIZE_MAX; lia). reflexivity.
Qed.
Lemma lor_range x y : 0 <= x < 2 ^ 64 -> 0 <= y < 2 ^ 64 -> 0 <= Z.lor x y < 2 ^ 64.
Proof.
  intros. apply range_of_bits; [apply Z.lor_nonneg; lia|].
  intros k K. rewrite Z.lor_spec, !testbit_range by lia. reflexivity.
Qed.
Lemma land_range x y : 0 <= x < 2 ^ 64 -> 0 <= y -> 0 <= Z.land x y < 2 ^ 64.
Proof.
  intros. apply range_of_bits; [apply Z.land_nonneg; lia|].
  intros k K. rewrite Z.land_spec, testbit_range by lia. reflexivity.
Qed.
Lemma shl1_range k : 0 <= k < 64 -> 0 <= Z.shiftl 1 k < 2 ^ 64.
Proof. intros. rewrite Z.shiftl_1_l. split; [apply Z.pow_nonneg; lia | apply Z.pow_lt_mono_r; lia]. Qed.
Lemma shl1_bit k n : 0 <= k -> 0 <= n -> Z.testbit (Z.shiftl 1 k) n = (n =? k).
Proof.
  intros. rewrite Z.shiftl_1_l. destruct (Z.eqb_spec n k) as [->|].
  - apply Z.pow2_bits_true. lia.
  - apply Z.pow2_bits_false. lia.
Qed.
(** ~x in 64 bits *)
Lemma not_bit x k : 0 <= x < 2 ^ 64 -> 0 <= k < 64 -> Z.testbit (SIZE_MAX - x) k = negb (Z.testbit x k).
Proof.
  intros H K. unfold SIZE_MAX.
  rewrite ones_eq by lia. rewrite Z.sub_nocarry_ldiff.
  - rewrite Z.ldiff_spec, Z.ones_spec_low by lia. reflexivity.
  - apply Z.bits_inj'. intros n Hn. rewrite Z.ldiff_spec, Z.bits_0.
    destruct (Z.lt_ge_cases n 64).
    + rewrite Z.ones_spec_low by lia. now rewrite andb_false_r.
    + now rewrite testbit_range by lia.
Qed.

Lemma bm_set_ok bm i : bm_ok bm -> 0 <= i < 256 -> bm_ok (bm_set bm i).
Proof.
  intros [L B] Hi. split; [unfold bm_set; now rewrite lset_zlen|].
  intros j Hj. unfold bm_set. rewrite word_lset by (rewrite L; lia).
  destruct (j =? i / 64); auto. apply lor_range; [apply B; lia|apply shl1_range; lia].
Qed.
Lemma bm_clear_ok bm i : bm_ok bm -> 0 <= i < 256 -> bm_ok (bm_clear bm i).
Proof.
  intros [L B] Hi. split; [unfold bm_clear; now rewrite lset_zlen|].
  intros j Hj. unfold bm_clear. rewrite word_lset by (rewrite L; lia).
  destruct (j =? i / 64); auto. apply land_range; [apply B; lia|].
  pose proof (shl1_range (i - i / 64 * 64)). unfold SIZE_MAX. lia.
Qed.
Lemma bm_get_set bm i j : bm_ok bm -> 0 <= i < 256 -> 0 <= j < 256 ->
  bm_get (bm_set bm i) j = (j =? i) || bm_get bm j.
Proof.
  intros [L B] Hi Hj. rewrite !bm_get_bit by lia. unfold bm_set.
  rewrite word_lset by (rewrite L; lia). destruct (Z.eqb_spec (j / 64) (i / 64)) as [E|E].
  - rewrite Z.lor_spec, shl1_bit by lia. rewrite <- E.
    replace (j mod 64 =? i - j / 64 * 64) with (j =? i) by lia. apply orb_comm.
  - replace (j =? i) with false by (destruct (Z.eqb_spec j i); congruence). reflexivity.
Qed.
Lemma bm_get_clear bm i j : bm_ok bm -> 0 <= i < 256 -> 0 <= j < 256 ->
  bm_get (bm_clear bm i) j = negb (j =? i) && bm_get bm j.
Proof.
  intros [L B] Hi Hj. rewrite !bm_get_bit by lia. unfold bm_clear.
  rewrite word_lset by (rewrite L; lia). destruct (Z.eqb_spec (j / 64) (i / 64)) as [E|E].
  - rewrite Z.land_spec. rewrite not_bit by (try apply shl1_range; lia). rewrite shl1_bit by lia. rewrite <- E.
    replace (j mod 64 =? i - j / 64 * 64) with (j =? i) by lia. apply andb_comm.
  - replace (j =? i) with false by (destruct (Z.eqb_spec j i); congruence). reflexivity.
Qed.

(** ** ffz64 *)
Lemma ffz_from_spec : forall n i x, 0 <= i ->
  (exists k, i <= k < i + Z.of_nat n /\ Z.testbit x k = false /\ (forall k', i <= k' < k -> Z.testbit x k' = true) /\ ffz_from n i x = k + 1) \/
  (ffz_from n i x = 0 /\ forall k, i <= k < i + Z.of_nat n -> Z.testbit x k = true).
Proof.
  induction n; intros i x Hi; cbn [ffz_from].
  - right. split; [auto|lia].
  - destruct (Z.testbit x i) eqn:E.
    + destruct (IHn (i + 1) x ltac:(lia)) as [(k & K & T & A & F)|(F & A)].
      * left. exists k. split; [lia|]. split; [auto|]. split; [|auto].
        intros k' Hk'. destruct (Z.eq_dec k' i) as [->|]; [auto|]. apply A. lia.
      * right. split; [auto|]. intros k Hk. destruct (Z.eq_dec k i) as [->|]; [auto|]. apply A. lia.
    + left. exists i. split; [lia|]. split; [auto|]. split; [lia|auto].
Qed.
Lemma ffz64_spec x : 0 <= x < 2 ^ 64 -> x <> SIZE_MAX ->
  exists k, 0 <= k < 64 /\ ffz64 x = k + 1 /\ Z.testbit x k = false /\ forall k', 0 <= k' < k -> Z.testbit x k' = true.
Proof.
  intros H N. unfold ffz64. destruct (ffz_from_spec 64 0 x ltac:(lia)) as [(k & K & T & A & F)|(F & A)].
  - exists k. repeat split; auto; lia.
  - exfalso. apply N. apply all_bits; auto.
Qed.

(** ** masks *)
Lemma shl_ones_bit n k : 0 <= n < 64 -> 0 <= k < 64 -> Z.testbit (w64 (Z.shiftl SIZE_MAX n)) k = (n <=? k).
Proof.
  intros. unfold w64. rewrite Z.mod_pow2_bits_low by lia. rewrite Z.shiftl_spec by lia.
  destruct (Z.leb_spec n k).
  - apply ones64. lia.
  - apply Z.testbit_neg_r. lia.
Qed.
Lemma get_mask_bit n k : 0 <= n -> 0 <= k < 64 -> Z.testbit (get_mask n) k = (n <=? k).
Proof.
  intros. unfold get_mask. destruct (Z.ltb_spec n 64).
  - now apply shl_ones_bit.
  - rewrite Z.bits_0. lia.
Qed.
Lemma get_mask_range n : 0 <= get_mask n < 2 ^ 64.
Proof. unfold get_mask. destruct (n <? 64); [apply w64_range|lia]. Qed.
Lemma split_bit n k : 0 <= n < 64 -> 0 <= k < 64 -> Z.testbit (SIZE_MAX - w64 (Z.shiftl SIZE_MAX n)) k = (k <? n).
Proof. intros. rewrite not_bit by (try apply w64_range; lia). rewrite shl_ones_bit by lia. lia. Qed.
Lemma split_range n : 0 <= SIZE_MAX - w64 (Z.shiftl SIZE_MAX n) < 2 ^ 64.
Proof. pose proof (w64_range (Z.shiftl SIZE_MAX n)). unfold SIZE_MAX in *. lia. Qed.

(** ** the search loop.
    [seen j]: slot j is used or was masked out *)
Definition masked_at (slots i : Z) (masked : Z) : Z :=
  if i =? slots / 64 then Z.lor masked (get_mask (slots - i * 64)) else masked.

(** bits of the masked word i of bitmap bm *)
Lemma masked_bit slots i m k : 1 <= slots <= 256 -> 0 <= i <= (slots - 1) / 64 -> 0 <= k < 64 ->
  Z.testbit (masked_at slots i m) k = Z.testbit m k || (slots <=? i * 64 + k).
Proof.
  intros. unfold masked_at. destruct (Z.eqb_spec i (slots / 64)).
  - rewrite Z.lor_spec, get_mask_bit by lia. f_equal. lia.
  - replace (slots <=? i * 64 + k) with false by lia. now rewrite orb_false_r.
Qed.
Lemma masked_range slots i m : 0 <= m < 2 ^ 64 -> 0 <= masked_at slots i m < 2 ^ 64.
Proof. intros. unfold masked_at. destruct (_ =? _); auto. apply lor_range; [auto|apply get_mask_range]. Qed.

Definition next_word (slots i : Z) : Z := if i =? (slots - 1) / 64 then 0 else i + 1.

Lemma loop_unfold f slots i bm masked :
  free_slot_loop (S f) slots i bm masked =
  if negb (masked_at slots i masked =? SIZE_MAX) then Some (ffz64 (masked_at slots i masked) - 1 + i * 64)
  else free_slot_loop f slots (next_word slots i) bm (word64 bm (next_word slots i)).
Proof. reflexivity. Qed.

(** one word examined: either it yields a slot, the first one not masked, or all its slots are masked *)
Lemma word_step slots i m : 1 <= slots <= 256 -> 0 <= i <= (slots - 1) / 64 -> 0 <= m < 2 ^ 64 ->
  (masked_at slots i m <> SIZE_MAX /\ exists s, ffz64 (masked_at slots i m) - 1 + i * 64 = s /\
     i * 64 <= s < i * 64 + 64 /\ s < slots /\ Z.testbit m (s - i * 64) = false /\
     forall j, i * 64 <= j < s -> Z.testbit m (j - i * 64) = true) \/
  (masked_at slots i m = SIZE_MAX /\ forall j, i * 64 <= j < i * 64 + 64 -> j < slots -> Z.testbit m (j - i * 64) = true).
Proof.
  intros Hs Hi Hm. destruct (Z.eq_dec (masked_at slots i m) SIZE_MAX) as [E|E].
  - right. split; [auto|]. intros j Hj Hj'.
    assert (Z.testbit (masked_at slots i m) (j - i * 64) = true) as T by (rewrite E; apply ones64; lia).
    rewrite masked_bit in T by lia. replace (slots <=? i * 64 + (j - i * 64)) with false in T by lia.
    now rewrite orb_false_r in T.
  - left. split; [auto|]. destruct (ffz64_spec _ (masked_range slots i m Hm) E) as (k & K & F & T & A).
    rewrite masked_bit in T by lia. apply orb_false_elim in T. destruct T as [T1 T2].
    exists (k + i * 64). rewrite F. split; [lia|]. split; [lia|]. split; [lia|]. split.
    + now replace (k + i * 64 - i * 64) with k by lia.
    + intros j Hj. specialize (A (j - i * 64) ltac:(lia)). rewrite masked_bit in A by lia.
      replace (slots <=? i * 64 + (j - i * 64)) with false in A by lia. now rewrite orb_false_r in A.
Qed.

Lemma word_bit bm i j : 0 <= i < 4 -> i * 64 <= j < i * 64 + 64 -> Z.testbit (word64 bm i) (j - i * 64) = bm_get bm j.
Proof.
  intros. rewrite bm_get_bit by lia. replace (j / 64) with i by lia. f_equal. lia.
Qed.

(** continuing from word i over unmasked words finds the first free slot at or after 64 i *)
Lemma loop_scan bm slots : bm_ok bm -> 1 <= slots <= 256 -> forall n i fu,
  0 <= i -> i + Z.of_nat n = (slots - 1) / 64 + 1 ->
  (exists s, i * 64 <= s < slots /\ bm_get bm s = false /\ (forall j, i * 64 <= j < s -> bm_get bm j = true) /\
     free_slot_loop (n + fu) slots i bm (word64 bm i) = Some s) \/
  ((forall j, i * 64 <= j < slots -> bm_get bm j = true) /\ (1 <= Z.of_nat n ->
     free_slot_loop (n + fu) slots i bm (word64 bm i) = free_slot_loop fu slots 0 bm (word64 bm 0))).
Proof.
  intros [L B] Hs. induction n as [|n IH]; intros i fu Hi Hn.
  - right. split; [|lia]. intros. lia.
  - cbn [plus]. rewrite loop_unfold.
    destruct (word_step slots i (word64 bm i) Hs ltac:(lia) (B i ltac:(lia))) as [(N & s & -> & R & S1 & T & A)|(E & A)].
    + left. exists s. destruct (Z.eqb_spec (masked_at slots i (word64 bm i)) SIZE_MAX); [contradiction|]. cbn [negb].
      split; [lia|]. rewrite word_bit in T by lia. split; [auto|]. split; [|auto].
      intros j Hj. specialize (A j Hj). now rewrite word_bit in A by lia.
    + rewrite E, Z.eqb_refl. cbn [negb].
      assert (forall j, i * 64 <= j < i * 64 + 64 -> j < slots -> bm_get bm j = true) as A'.
      { intros j H1 H2. specialize (A j H1 H2). now rewrite word_bit in A by lia. }
      unfold next_word. destruct (Z.eqb_spec i ((slots - 1) / 64)) as [Ei|Ei].
      * assert (n = 0%nat) as -> by lia. right. split; [|auto]. intros j Hj. apply A'; lia.
      * destruct (IH (i + 1) fu ltac:(lia) ltac:(lia)) as [(s & S1 & S2 & S3 & S4)|(F1 & F2)].
        -- left. exists s. split; [lia|]. split; [auto|]. split; [|auto].
           intros j Hj. destruct (Z.lt_ge_cases j (i * 64 + 64)); [apply A'; lia|apply S3; lia].
        -- right. split.
           ++ intros j Hj. destruct (Z.lt_ge_cases j (i * 64 + 64)); [apply A'; lia|apply F1; lia].
           ++ intros _. apply F2. lia.
Qed.

(** the free slot found: the first one in cyclic order from the random index *)
Definition cyclic_first (bm : list Z) (slots r s : Z) : Prop :=
  0 <= s < slots /\ bm_get bm s = false /\
  (if r <=? s then forall j, r <= j < s -> bm_get bm j = true
   else (forall j, r <= j < slots -> bm_get bm j = true) /\ (forall j, 0 <= j < s -> bm_get bm j = true)).

Lemma free_slot_loop_fuel f slots : forall i bm m s, free_slot_loop f slots i bm m = Some s ->
  forall f', (f <= f')%nat -> free_slot_loop f' slots i bm m = Some s.
Proof.
  induction f; intros i bm m s H f' Hf; [discriminate|].
  destruct f' as [|f']; [lia|]. rewrite loop_unfold in *.
  destruct (negb _); auto. eapply IHf; eauto. lia.
Qed.

Lemma free_slot_random_spec bm slots r : bm_ok bm -> 1 <= slots <= 256 -> 0 <= r < slots ->
  (exists j, 0 <= j < slots /\ bm_get bm j = false) ->
  exists s, free_slot_random slots r bm = Some s /\ cyclic_first bm slots r s.
Proof.
  intros Hbm Hs Hr (j0 & Hj0 & Fj0). pose proof Hbm as [L B]. unfold free_slot_random.
  set (i := r / 64). replace (r - i * 64) with (r mod 64) by (unfold i; lia).
  set (sp := SIZE_MAX - w64 (Z.shiftl SIZE_MAX (r mod 64))).
  set (m := Z.lor (word64 bm i) sp).
  assert (0 <= i <= (slots - 1) / 64) as Hi by (unfold i; lia).
  assert (0 <= m < 2 ^ 64) as Hm by (apply lor_range; [apply B; lia | apply split_range]).
  assert (forall j, i * 64 <= j < i * 64 + 64 -> Z.testbit m (j - i * 64) = bm_get bm j || (j <? r)) as Mb.
  { intros j Hj. unfold m, sp. rewrite Z.lor_spec, word_bit, split_bit by lia. f_equal. unfold i in *. lia. }
  (* every free slot in all words, scanning from 0 with at least 4 rounds left *)
  assert (forall fu, exists s, 0 <= s < slots /\ bm_get bm s = false /\ (forall j, 0 <= j < s -> bm_get bm j = true) /\
            free_slot_loop (4 + fu) slots 0 bm (word64 bm 0) = Some s) as Full.
  { intros fu. set (n := Z.to_nat ((slots - 1) / 64 + 1)).
    destruct (loop_scan bm slots Hbm Hs n 0 (4 - n + fu) ltac:(lia) ltac:(lia)) as [(s & S1 & S2 & S3 & S4)|(F1 & _)].
    - exists s. split; [lia|]. split; [auto|]. split; [intros; apply S3; lia|].
      rewrite <- S4. f_equal. lia.
    - rewrite (F1 j0 ltac:(lia)) in Fj0. discriminate. }
  change 6%nat with (S 5). rewrite loop_unfold.
  destruct (word_step slots i m Hs Hi Hm) as [(N & s & -> & R & S1 & T & A)|(E & A)].
  - destruct (Z.eqb_spec (masked_at slots i m) SIZE_MAX); [contradiction|]. cbn [negb].
    exists s. split; [auto|]. rewrite Mb in T by lia. apply orb_false_elim in T. destruct T as [T1 T2].
    split; [lia|]. split; [auto|]. replace (r <=? s) with true by lia.
    intros j Hj. assert (i * 64 <= j < s) as Hj' by (unfold i; lia).
    specialize (A j Hj'). rewrite Mb in A by lia. replace (j <? r) with false in A by lia. now rewrite orb_false_r in A.
  - rewrite E, Z.eqb_refl. cbn [negb].
    assert (forall j, r <= j < i * 64 + 64 -> j < slots -> bm_get bm j = true) as A'.
    { intros j H1 H2. assert (i * 64 <= j) by (unfold i; lia). specialize (A j ltac:(lia) H2).
      rewrite Mb in A by lia. replace (j <? r) with false in A by lia. now rewrite orb_false_r in A. }
    unfold next_word. destruct (Z.eqb_spec i ((slots - 1) / 64)) as [Ei|Ei].
    + destruct (Full 1%nat) as (s & S1 & S2 & S3 & S4). exists s. split; [exact S4|].
      split; [auto|]. split; [auto|].
      destruct (Z.leb_spec r s).
      * intros j Hj. apply S3. lia.
      * split; [intros j Hj; apply A'; lia|auto].
    + set (n := Z.to_nat ((slots - 1) / 64 - i)).
      (* after this word there are n more, then at most i + 1 from the start *)
      destruct (loop_scan bm slots Hbm Hs n (i + 1) (5 - n) ltac:(lia) ltac:(lia)) as [(s & S1 & S2 & S3 & S4)|(F1 & F2)].
      * exists s. split; [rewrite <- S4; f_equal; lia|]. split; [lia|]. split; [auto|].
        replace (r <=? s) with true by (unfold i in *; lia).
        intros j Hj. destruct (Z.lt_ge_cases j (i * 64 + 64)); [apply A'; lia | apply S3; lia].
      * specialize (F2 ltac:(lia)). replace (n + (5 - n))%nat with 5%nat in F2 by lia. rewrite F2.
        assert (forall j, r <= j < slots -> bm_get bm j = true) as Ar.
        { intros j Hj. destruct (Z.lt_ge_cases j (i * 64 + 64)); [apply A'; lia | apply F1; lia]. }
        assert (j0 < r) as Hj0r. { destruct (Z.lt_ge_cases j0 r); auto. rewrite (Ar j0) in Fj0 by lia. discriminate. }
        (* the remaining fuel suffices: words 0 .. i *)
        destruct (loop_scan bm (64 * (i + 1)) Hbm ltac:(unfold i in *; lia) (Z.to_nat (i + 1)) 0 0 ltac:(lia)) as [(s & S1 & S2 & S3 & S4)|(F3 & _)].
        { rewrite Z2Nat.id by lia. rewrite Z.add_0_l. replace (64 * (i + 1) - 1) with (i * 64 + 63) by lia.
          rewrite Z.div_add_l by lia. lia. }
        -- exists s. assert (s < r) as Hsr. { destruct (Z.lt_ge_cases s r); auto. rewrite (S3 j0) in Fj0 by lia. discriminate. }
           split.
           { set (k := Z.to_nat (s / 64)). 
             assert (forall d i', (d <= k)%nat -> i' = Z.of_nat (k - d) -> free_slot_loop (S d) slots i' bm (word64 bm i') = Some s) as P.
             { induction d as [|d IHd]; intros i' Hd ->; rewrite loop_unfold.
               - replace (Z.of_nat (k - 0)) with (s / 64) by lia.
                 destruct (word_step slots (s / 64) (word64 bm (s / 64)) Hs ltac:(lia) (B (s/64) ltac:(lia))) as [(N & s' & -> & R' & S1' & T' & A2)|(E' & A2)].
                 + destruct (Z.eqb_spec (masked_at slots (s/64) (word64 bm (s/64))) SIZE_MAX); [contradiction|]. cbn [negb]. f_equal.
                   rewrite word_bit in T' by lia.
                   destruct (Z.lt_trichotomy s' s) as [Hl|[|Hl]]; [|auto|].
                   * rewrite (S3 s') in T' by lia. discriminate.
                   * specialize (A2 s ltac:(lia)). rewrite word_bit in A2 by lia. congruence.
                 + specialize (A2 s ltac:(lia) ltac:(lia)). rewrite word_bit in A2 by lia. congruence.
               - set (w := Z.of_nat (k - S d)).
                 destruct (word_step slots w (word64 bm w) Hs ltac:(unfold w; lia) (B w ltac:(unfold w; lia))) as [(N & s' & -> & R' & S1' & T' & A2)|(E' & A2)].
                 + rewrite word_bit in T' by (unfold w in *; lia). rewrite (S3 s') in T' by (unfold w in *; lia). discriminate.
                 + rewrite E', Z.eqb_refl. cbn [negb]. unfold next_word.
                   replace (w =? (slots - 1) / 64) with false by (unfold w; lia).
                   apply IHd; [lia|]. unfold w. lia. }
             eapply free_slot_loop_fuel; [apply (P k 0); lia|]. lia. }
           split; [lia|]. split; [auto|]. replace (r <=? s) with false by lia. split; [auto|].
           intros j Hj. apply S3. lia.
        -- rewrite (F3 j0 ltac:(lia)) in Fj0. discriminate.
Qed.

Lemma linear_spec bm slots : bm_ok bm -> 1 <= slots <= 256 -> forall n i,
  0 <= i -> i + Z.of_nat n = (slots - 1) / 64 + 1 -> (exists j, i * 64 <= j < slots /\ bm_get bm j = false) ->
  exists s, free_slot_linear (zseq i n) slots bm = Some s /\ i * 64 <= s < slots /\ bm_get bm s = false /\
    forall j, i * 64 <= j < s -> bm_get bm j = true.
Proof.
  intros [L B] Hs. induction n as [|n IH]; intros i Hi Hn (j0 & Hj0 & Fj0); [lia|].
  cbn [zseq free_slot_linear].
  set (m := if i =? (slots - 1) / 64 then Z.lor (word64 bm i) (get_mask (slots - i * 64)) else word64 bm i).
  assert (0 <= m < 2 ^ 64) as Hm.
  { unfold m. destruct (_ =? _); [apply lor_range; [apply B; lia|apply get_mask_range]|apply B; lia]. }
  assert (forall k, 0 <= k < 64 -> Z.testbit m k = bm_get bm (i * 64 + k) || (slots <=? i * 64 + k)) as Mb.
  { intros k Hk. rewrite <- (word_bit bm i) by lia. replace (i * 64 + k - i * 64) with k by lia. unfold m.
    destruct (Z.eqb_spec i ((slots - 1) / 64)).
    - rewrite Z.lor_spec, get_mask_bit by lia. f_equal. lia.
    - replace (slots <=? i * 64 + k) with false by lia. now rewrite orb_false_r. }
  destruct (Z.eqb_spec m SIZE_MAX) as [E|E]; cbn [negb].
  - assert (forall j, i * 64 <= j < i * 64 + 64 -> j < slots -> bm_get bm j = true) as A.
    { intros j H1 H2. specialize (Mb (j - i * 64) ltac:(lia)). rewrite E, ones64 in Mb by lia.
      replace (i * 64 + (j - i * 64)) with j in Mb by lia. replace (slots <=? j) with false in Mb by lia.
      now rewrite orb_false_r in Mb. }
    assert (i * 64 + 64 <= j0) as Hj. { destruct (Z.lt_ge_cases j0 (i * 64 + 64)); auto. rewrite A in Fj0 by lia. discriminate. }
    destruct (IH (i + 1) ltac:(lia) ltac:(lia)) as (s & S0 & S1 & S2 & S3).
    { exists j0. split; [lia|auto]. }
    exists s. split; [auto|]. split; [lia|]. split; [auto|].
    intros j Hj'. destruct (Z.lt_ge_cases j (i * 64 + 64)); [apply A; lia|apply S3; lia].
  - destruct (ffz64_spec m Hm E) as (k & K & F & T & A). exists (i * 64 + k).
    rewrite Mb in T by lia. apply orb_false_elim in T. destruct T as [T1 T2].
    split; [rewrite F; f_equal; lia|]. split; [lia|]. split; [auto|].
    intros j Hj. specialize (A (j - i * 64) ltac:(lia)). rewrite Mb in A by lia.
    replace (i * 64 + (j - i * 64)) with j in A by lia. replace (slots <=? j) with false in A by lia.
    now rewrite orb_false_r in A.
Qed.
Lemma free_slot_linear_spec bm slots : bm_ok bm -> 1 <= slots <= 256 ->
  (exists j, 0 <= j < slots /\ bm_get bm j = false) ->
  exists s, free_slot_linear (zrange 0 ((slots - 1) / 64 + 1)) slots bm = Some s /\ 0 <= s < slots /\ bm_get bm s = false /\
    forall j, 0 <= j < s -> bm_get bm j = true.
Proof. intros. unfold zrange. apply (linear_spec bm slots H H0 _ 0); try lia. auto. Qed.
