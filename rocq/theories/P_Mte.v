From Coq Require Import String ZArith List Bool Lia.
From Verif Require Import M_Base M_Mte S_Mte.
Import ListNotations.
Open Scope Z_scope.

(** ** 4-bit arrays *)
Lemma land15 x : Z.land x 0xf = x mod 16.
Proof. exact (Z.land_ones x 4 ltac:(lia)). Qed.
Lemma u4_shift idx : Z.shiftl (Z.land idx 1) 2 = 4 * (idx mod 2).
Proof. change 1 with (Z.ones 1). rewrite Z.land_ones by lia. rewrite Z.shiftl_mul_pow2 by lia. change (2 ^ 1) with 2. lia. Qed.
Lemma u4_get_val arr idx : u4_arr_get arr idx = (arr (idx / 2) / 2 ^ (4 * (idx mod 2))) mod 16.
Proof.
  unfold u4_arr_get. rewrite u4_shift. change (Z.shiftr idx 1) with (Z.div2 idx). rewrite Z.div2_div.
  rewrite land15. pose proof (Z.mod_pos_bound idx 2 ltac:(lia)). rewrite Z.shiftr_div_pow2 by lia. reflexivity.
Qed.
Lemma u4_get_range arr idx : 0 <= u4_arr_get arr idx < 16.
Proof. rewrite u4_get_val. apply Z.mod_pos_bound. lia. Qed.
Lemma lor_low a v : 0 <= v < 16 -> a mod 16 = 0 -> Z.lor a v = a + v.
Proof.
  intros Hv Ha. symmetry. assert (Z.land a v = 0) as L.
  { apply Z.bits_inj'. intros n Hn. rewrite Z.land_spec, Z.bits_0. destruct (Z_lt_dec n 4).
    - replace (Z.testbit a n) with false; [reflexivity|]. symmetry. rewrite <- (Z.mod_pow2_bits_low a 4 n) by lia. change (2 ^ 4) with 16. rewrite Ha. apply Z.bits_0.
    - destruct (Z.eq_dec v 0) as [->|]; [rewrite Z.bits_0; apply andb_false_r|]. rewrite (Z.bits_above_log2 v n); [apply andb_false_r|lia|]. assert (Z.log2 v < 4); [|lia]. apply Z.log2_lt_pow2; [lia|]. change (2 ^ 4) with 16. lia. }
  rewrite <- Z.lxor_lor by exact L. apply Z.add_nocarry_lxor. exact L.
Qed.
Lemma u4_set_even a v : 0 <= a < 256 -> 0 <= v < 16 -> Z.lor (Z.land a 240) v mod 256 = a / 16 * 16 + v.
Proof.
  intros Ha Hv. assert (Z.land a 240 = a / 16 * 16) as L.
  { change 240 with (Z.shiftl (Z.ones 4) 4). change (a / 16 * 16) with (a / 2 ^ 4 * 2 ^ 4). rewrite <- (Z.shiftl_mul_pow2 (a / 2 ^ 4) 4) by lia. rewrite <- Z.shiftr_div_pow2 by lia.
    apply Z.bits_inj'. intros n Hn. rewrite Z.land_spec.
    destruct (Z_lt_dec n 4); [rewrite !Z.shiftl_spec_low by lia; apply andb_false_r|]. rewrite !Z.shiftl_spec by lia. rewrite Z.shiftr_spec by lia. replace (n - 4 + 4) with n by lia.
    rewrite Z.testbit_ones by lia. destruct (Z_lt_dec n 8); [replace ((0 <=? n - 4) && (n - 4 <? 4)) with true by lia; apply andb_true_r|]. replace ((0 <=? n - 4) && (n - 4 <? 4)) with false by lia.
    destruct (Z.eq_dec a 0) as [->|]; [rewrite Z.bits_0; reflexivity|]. rewrite (Z.bits_above_log2 a n); [reflexivity|lia|]. assert (Z.log2 a < 8); [|lia]. apply Z.log2_lt_pow2; [lia|]. change (2 ^ 8) with 256. lia. }
  rewrite L. rewrite lor_low; [|exact Hv|apply Z.mod_mul; lia]. apply Z.mod_small. pose proof (Z.div_mod a 16 ltac:(lia)). pose proof (Z.mod_pos_bound a 16 ltac:(lia)). assert (a / 16 < 16) by (apply Z.div_lt_upper_bound; lia). pose proof (Z.div_pos a 16 ltac:(lia) ltac:(lia)). lia.
Qed.
Lemma u4_set_odd a v : 0 <= a < 256 -> 0 <= v < 16 -> Z.lor (Z.land a 15) (Z.shiftl v 4) mod 256 = a mod 16 + 16 * v.
Proof.
  intros Ha Hv. rewrite land15, Z.lor_comm, Z.shiftl_mul_pow2 by lia. change (2 ^ 4) with 16. pose proof (Z.mod_pos_bound a 16 ltac:(lia)). rewrite lor_low; [|lia|apply Z.mod_mul; lia]. rewrite Z.mod_small; lia.
Qed.
Lemma u4_set_get arr i j v : (forall k, 0 <= arr k < 256) -> 0 <= v < 16 -> u4_arr_get (u4_arr_set arr i v) j = if j =? i then v else u4_arr_get arr j.
Proof.
  intros HA Hv. rewrite !u4_get_val. unfold u4_arr_set. rewrite u4_shift. change (Z.shiftr i 1) with (Z.div2 i). rewrite Z.div2_div. unfold fupd.
  pose proof (Z.mod_pos_bound i 2 ltac:(lia)) as Bi. pose proof (Z.mod_pos_bound j 2 ltac:(lia)) as Bj. pose proof (Z.div_mod i 2 ltac:(lia)) as Di. pose proof (Z.div_mod j 2 ltac:(lia)) as Dj. specialize (HA (i / 2)). set (a := arr (i / 2)) in *.
  pose proof (Z.div_mod a 16 ltac:(lia)) as Da. pose proof (Z.mod_pos_bound a 16 ltac:(lia)) as Ba. assert (0 <= a / 16 < 16) as Ca by (split; [apply Z.div_pos; lia|apply Z.div_lt_upper_bound; lia]).
  assert (i mod 2 = 0 \/ i mod 2 = 1) as [Ei|Ei] by lia; assert (j mod 2 = 0 \/ j mod 2 = 1) as [Ej|Ej] by lia; rewrite ?Ei, ?Ej in *;
    (destruct (Z.eqb_spec (j / 2) (i / 2)) as [E|NE]; [rewrite E in *; fold a|replace (j =? i) with false by lia; reflexivity]).
  - replace (j =? i) with true by lia. change (4 * 0) with 0. change (Z.shiftr 240 0 mod 256) with 240. rewrite Z.shiftl_0_r, u4_set_even by lia. change (2 ^ 0) with 1. rewrite Z.div_1_r. rewrite Z.add_comm, Z.mod_add by lia. apply Z.mod_small. lia.
  - replace (j =? i) with false by lia. change (4 * 0) with 0. change (4 * 1) with 4. change (Z.shiftr 240 0 mod 256) with 240. rewrite Z.shiftl_0_r, u4_set_even by lia. change (2 ^ 4) with 16. f_equal. rewrite Z.div_add_l by lia. rewrite (Z.div_small v) by lia. lia.
  - replace (j =? i) with false by lia. change (4 * 0) with 0. change (4 * 1) with 4. change (Z.shiftr 240 4 mod 256) with 15. rewrite u4_set_odd by lia. change (2 ^ 0) with 1. rewrite !Z.div_1_r. rewrite Z.mul_comm, Z.mod_add by lia. apply Z.mod_mod. lia.
  - replace (j =? i) with true by lia. change (4 * 1) with 4. change (Z.shiftr 240 4 mod 256) with 15. rewrite u4_set_odd by lia. change (2 ^ 4) with 16. rewrite Z.mul_comm, Z.div_add by lia. rewrite (Z.div_small (a mod 16)) by lia. rewrite Z.add_0_l. apply Z.mod_small. lia.
Qed.
Lemma u4_set_byte arr i v : (forall k, 0 <= arr k < 256) -> forall k, 0 <= u4_arr_set arr i v k < 256.
Proof. intros HA k. unfold u4_arr_set, fupd. destruct (k =? _); [apply Z.mod_pos_bound; lia|apply HA]. Qed.

(** ** pointers *)
Lemma untag_val p : 0 <= p -> untag_pointer p = p mod 2 ^ 56.
Proof. intros H. unfold untag_pointer. change (Z.shiftr (2 ^ 64 - 1) 8) with (Z.ones 56). apply Z.land_ones. lia. Qed.
Lemma set_tag_val p tag : 0 <= p -> 0 <= tag < 256 -> set_pointer_tag p tag = tag * 2 ^ 56 + p mod 2 ^ 56.
Proof.
  intros Hp Ht. unfold set_pointer_tag. rewrite untag_val by lia. rewrite Z.shiftl_mul_pow2 by lia. rewrite Z.mod_small by (change (2 ^ 64) with (256 * 2 ^ 56); lia).
  pose proof (Z.mod_pos_bound p (2 ^ 56) ltac:(lia)) as B. assert (Z.land (tag * 2 ^ 56) (p mod 2 ^ 56) = 0) as L.
  { apply Z.bits_inj'. intros n Hn. rewrite Z.land_spec, Z.bits_0. destruct (Z_lt_dec n 56); [rewrite Z.mul_pow2_bits_low by lia; reflexivity|]. rewrite Z.mod_pow2_bits_high by lia. apply andb_false_r. }
  rewrite <- Z.lxor_lor by exact L. symmetry. apply Z.add_nocarry_lxor. exact L.
Qed.
Lemma get_set_tag p tag : 0 <= p -> 0 <= tag < 16 -> get_pointer_tag (set_pointer_tag p tag) = tag.
Proof.
  intros Hp Ht. rewrite set_tag_val by lia. unfold get_pointer_tag. rewrite land15, Z.shiftr_div_pow2 by lia. pose proof (Z.mod_pos_bound p (2 ^ 56) ltac:(lia)). rewrite Z.div_add_l by lia. rewrite (Z.div_small (p mod 2 ^ 56)) by lia. rewrite Z.add_0_r. apply Z.mod_small. lia.
Qed.
Lemma untag_set_tag p tag : 0 <= p -> 0 <= tag < 256 -> untag_pointer (set_pointer_tag p tag) = untag_pointer p.
Proof.
  intros Hp Ht. pose proof (Z.mod_pos_bound p (2 ^ 56) ltac:(lia)). rewrite set_tag_val by lia. rewrite !untag_val by lia. rewrite Z.add_comm, Z.mod_add by lia. apply Z.mod_mod. lia.
Qed.

(** ** the mask *)
Lemma bit_spec i n : 0 <= i -> 0 <= n -> Z.testbit (Z.shiftl 1 i) n = (n =? i).
Proof. intros Hi Hn. rewrite Z.shiftl_mul_pow2 by lia. rewrite Z.mul_1_l. destruct (Z.eqb_spec n i) as [->|N]; [apply Z.pow2_bits_true; lia|apply Z.pow2_bits_false; lia]. Qed.
Lemma mask_bit t slot n : 0 <= n -> Z.testbit (tag_exclusion_mask t slot) n =
  (n =? 0) || (n =? u4_arr_get (tg_arr t) slot) || (n =? u4_arr_get (tg_arr t) (slot + 1)) || (n =? u4_arr_get (tg_arr t) (slot + 2)).
Proof.
  intros Hn. unfold tag_exclusion_mask, RESERVED_TAG. pose proof (u4_get_range (tg_arr t) slot). pose proof (u4_get_range (tg_arr t) (slot + 1)). pose proof (u4_get_range (tg_arr t) (slot + 2)). rewrite !Z.lor_spec, !bit_spec by lia. reflexivity.
Qed.
Lemma mask_free t slot : exists n, 0 <= n < 16 /\ Z.testbit (tag_exclusion_mask t slot) n = false.
Proof.
  set (a := u4_arr_get (tg_arr t) slot). set (b := u4_arr_get (tg_arr t) (slot + 1)). set (c := u4_arr_get (tg_arr t) (slot + 2)).
  assert (exists n, 1 <= n <= 4 /\ n <> a /\ n <> b /\ n <> c) as (n & Hn & A & B & C).
  { destruct (Z.eq_dec 1 a), (Z.eq_dec 1 b), (Z.eq_dec 1 c), (Z.eq_dec 2 a), (Z.eq_dec 2 b), (Z.eq_dec 2 c), (Z.eq_dec 3 a), (Z.eq_dec 3 b), (Z.eq_dec 3 c); try lia;
      first [exists 1; lia|exists 2; lia|exists 3; lia|exists 4; lia]. }
  exists n. split; [lia|]. rewrite mask_bit by lia. fold a b c. lia.
Qed.

(** ** histories *)
Record tinv (l : list tevent) (t : tags) : Prop := {
  ti_byte : forall k, 0 <= tg_arr t k < 256;
  ti_arr : forall i, 0 <= i < 258 -> u4_arr_get (tg_arr t) i = if (i =? 0) || (i =? 257) then 0 else last_tag l (i - 1);
  ti_mem : forall i, 0 <= i < 256 -> tg_mem t i = if in_use l i then last_tag l i else 0;
  ti_out : forall i, ~ 0 <= i < 256 -> last_tag l i = 0 /\ in_use l i = false }.
Lemma tag_index i : 0 <= i < 258 -> tag_index_ok i = true.
Proof. intros H. unfold tag_index_ok. change (Z.shiftr i 1) with (Z.div2 i). rewrite Z.div2_div. assert (i / 2 < 129) by (apply Z.div_lt_upper_bound; lia). lia. Qed.
Lemma arr_last l t i : tinv l t -> -1 <= i <= 256 -> u4_arr_get (tg_arr t) (i + 1) = last_tag l i.
Proof.
  intros I Hi. rewrite (ti_arr _ _ I) by lia. destruct (Z.eqb_spec (i + 1) 0); [rewrite (proj1 (ti_out _ _ I i ltac:(lia))); reflexivity|]. destruct (Z.eqb_spec (i + 1) 257); [rewrite (proj1 (ti_out _ _ I i ltac:(lia))); reflexivity|].
  cbn [orb]. f_equal. lia.
Qed.
(** what one allocation does *)
Lemma alloc_step l t irg slot p : tinv l t -> irg_ok irg -> 0 <= slot < 256 -> 0 <= p < 2 ^ 56 ->
  exists q t', tag_and_clear_slab_slot irg slot p t = Ok (q, t') /\ untag_pointer q = p /\ 1 <= get_pointer_tag q <= 15 /\
    get_pointer_tag q <> last_tag l slot /\ get_pointer_tag q <> last_tag l (slot - 1) /\ get_pointer_tag q <> last_tag l (slot + 1) /\
    tinv (TAlloc slot (get_pointer_tag q) :: l) t'.
Proof.
  intros I K Hs Hp. unfold tag_and_clear_slab_slot. rewrite !tag_index by lia. cbn [andb]. set (m := tag_exclusion_mask t slot). destruct (K m) as (R & N). specialize (N (mask_free t slot)). set (v := irg m) in *.
  unfold m in N. rewrite mask_bit in N by lia. pose proof (arr_last l t (slot - 1) I ltac:(lia)) as A0. pose proof (arr_last l t slot I ltac:(lia)) as A1. pose proof (arr_last l t (slot + 1) I ltac:(lia)) as A2.
  replace (slot - 1 + 1) with slot in A0 by lia. replace (slot + 1 + 1) with (slot + 2) in A2 by lia. rewrite A0, A1, A2 in N.
  exists (set_pointer_tag p v). eexists. split; [reflexivity|]. rewrite get_set_tag by lia. split; [rewrite untag_set_tag, untag_val by lia; apply Z.mod_small; lia|].
  split; [lia|]. split; [lia|]. split; [lia|]. split; [lia|]. constructor; cbn [tg_arr tg_mem].
  - apply u4_set_byte. exact (ti_byte _ _ I).
  - intros i Hi. rewrite (u4_set_get _ _ _ _ (ti_byte _ _ I)) by lia. cbn [last_tag]. destruct (Z.eqb_spec i (slot + 1)) as [->|NE].
    + replace ((slot + 1 =? 0) || (slot + 1 =? 257)) with false by lia. replace (slot =? slot + 1 - 1) with true by lia. reflexivity.
    + rewrite (ti_arr _ _ I) by lia. replace (slot =? i - 1) with false by lia. reflexivity.
  - intros i Hi. cbn [in_use last_tag]. unfold fupd. destruct (Z.eqb_spec i slot) as [->|NE]; [rewrite Z.eqb_refl; reflexivity|]. replace (slot =? i) with false by lia. apply (ti_mem _ _ I). exact Hi.
  - intros i Hi. cbn [in_use last_tag]. replace (slot =? i) with false by lia. apply (ti_out _ _ I). exact Hi.
Qed.
Lemma tagged_inv l t : tagged l t -> tinv l t.
Proof.
  induction 1 as [|l t irg slot p q t' H IH K Hs Hp E|l t slot p H IH Hs Hp|l t H IH U].
  - constructor; cbn; intros; try lia; auto. rewrite u4_get_val. destruct (_ || _); rewrite ?Z.div_0_l by (apply Z.pow_nonzero; lia || (pose proof (Z.mod_pos_bound i 2 ltac:(lia)); lia)); reflexivity.
  - destruct (alloc_step l t irg slot p IH K Hs Hp) as (q0 & t0 & E0 & _ & _ & _ & _ & _ & I). rewrite E in E0. injection E0 as <- <-. exact I.
  - constructor; cbn [tag_free_slot tg_arr tg_mem last_tag in_use].
    + exact (ti_byte _ _ IH).
    + exact (ti_arr _ _ IH).
    + intros i Hi. unfold fupd. destruct (Z.eqb_spec i slot) as [->|]; [rewrite Z.eqb_refl, get_set_tag by (unfold RESERVED_TAG; lia); reflexivity|]. replace (slot =? i) with false by lia. apply (ti_mem _ _ IH). exact Hi.
    + intros i Hi. replace (slot =? i) with false by lia. apply (ti_out _ _ IH). exact Hi.
  - constructor; cbn [tag_purge_slab tg_arr tg_mem last_tag in_use]; [exact (ti_byte _ _ IH)|exact (ti_arr _ _ IH)| |exact (ti_out _ _ IH)]. intros i Hi. rewrite U. reflexivity.
Qed.
Lemma C36_alloc l t irg slot p : tagged l t -> irg_ok irg -> 0 <= slot < 256 -> 0 <= p < 2 ^ 56 ->
  exists q t', tag_and_clear_slab_slot irg slot p t = Ok (q, t') /\ untag_pointer q = p /\ 1 <= get_pointer_tag q <= 15 /\
    get_pointer_tag q <> last_tag l slot /\ get_pointer_tag q <> last_tag l (slot - 1) /\ get_pointer_tag q <> last_tag l (slot + 1).
Proof. intros H K Hs Hp. destruct (alloc_step l t irg slot p (tagged_inv _ _ H) K Hs Hp) as (q & t' & X1 & X2 & X3 & X4 & X5 & X6 & _). exists q, t'. auto 10. Qed.
Lemma C36_mem l t i : tagged l t -> 0 <= i < 256 -> tg_mem t i = if in_use l i then last_tag l i else 0.
Proof. intros H. apply (ti_mem _ _ (tagged_inv _ _ H)). Qed.
Lemma last_adjacent l t : tagged l t -> forall i, last_tag l i = last_tag l (i + 1) -> last_tag l i = 0.
Proof.
  induction 1 as [|l t irg slot p q t' H IH K Hs Hp E|l t slot p H IH Hs Hp|l t H IH U]; intros i; cbn [last_tag]; auto.
  destruct (alloc_step l t irg slot p (tagged_inv _ _ H) K Hs Hp) as (q0 & t0 & E0 & _ & R & N0 & N1 & N2 & _). rewrite E in E0. injection E0 as <- <-.
  destruct (Z.eqb_spec slot i) as [<-|]; [replace (slot =? slot + 1) with false by lia; intros X; congruence|]. destruct (Z.eqb_spec slot (i + 1)) as [->|]; [|apply IH]. replace (i + 1 - 1) with i in N1 by lia. intros X; congruence.
Qed.
Lemma last_used l t : tagged l t -> forall i, in_use l i = true -> 1 <= last_tag l i <= 15.
Proof.
  induction 1 as [|l t irg slot p q t' H IH K Hs Hp E|l t slot p H IH Hs Hp|l t H IH U]; intros i; cbn [last_tag in_use]; auto.
  - discriminate.
  - destruct (alloc_step l t irg slot p (tagged_inv _ _ H) K Hs Hp) as (q0 & t0 & E0 & _ & R & _). rewrite E in E0. injection E0 as <- <-. destruct (slot =? i); [intros _; exact R|apply IH].
  - destruct (slot =? i); [discriminate|apply IH].
Qed.
Lemma tagged_range l t : tagged l t -> forall i, in_use l i = true -> 0 <= i < 256.
Proof. intros H i U. destruct (Z_le_dec 0 i), (Z_lt_dec i 256); try lia; rewrite (proj2 (ti_out _ _ (tagged_inv _ _ H) i ltac:(lia))) in U; discriminate. Qed.
(** the memory tags of neighbouring allocated slots differ *)
Lemma C36_neighbours l t i : tagged l t -> in_use l i = true -> in_use l (i + 1) = true -> tg_mem t i <> tg_mem t (i + 1).
Proof.
  intros H A B E. rewrite !(C36_mem l t) in E by (first [exact H|exact (tagged_range _ _ H _ A)|exact (tagged_range _ _ H _ B)]). rewrite A, B in E. pose proof (last_adjacent _ _ H i E). pose proof (last_used _ _ H i A). lia.
Qed.
Lemma last_none l2 l i : reallocated l2 i = 0%nat -> last_tag (l2 ++ l) i = last_tag l i.
Proof. induction l2 as [|[j t|j|] l2 IH]; cbn [reallocated app last_tag]; auto. destruct (j =? i); [discriminate|exact IH]. Qed.
Lemma tagged_tail l2 : forall l t, tagged (l2 ++ l) t -> exists t', tagged l t'.
Proof. induction l2 as [|e l2 IH]; cbn [app]; intros l t H; [eauto|]. inversion H; subst; eauto. Qed.
(** a pointer to a freed slot does not match the memory until the slot is allocated a second
    time *)
Lemma C36_stale l2 i v l1 t : tagged (l2 ++ TAlloc i v :: l1) t -> (in_use (l2 ++ TAlloc i v :: l1) i = false \/ reallocated l2 i = 1%nat) -> (reallocated l2 i <= 1)%nat -> tg_mem t i <> v.
Proof.
  intros H D R. destruct (tagged_tail l2 _ _ H) as (t1 & H1). assert (1 <= v <= 15 /\ 0 <= i < 256) as (V & Hi).
  { pose proof (last_used _ _ H1 i) as X. pose proof (tagged_range _ _ H1 i) as Y. cbn [in_use last_tag] in X, Y. rewrite Z.eqb_refl in X, Y. auto. }
  rewrite (C36_mem _ _ _ H Hi). destruct (in_use (l2 ++ TAlloc i v :: l1) i) eqn:U; [|lia]. destruct D as [D|D]; [discriminate|]. clear R U.
  revert t H D. induction l2 as [|[j w|j|] l2 IH]; cbn [reallocated app last_tag]; intros t H D; [discriminate| | |].
  - destruct (Z.eqb_spec j i) as [->|]; [|inversion H; subst; eapply IH; eauto]. injection D as D. inversion H as [|l t0 irg slot p q t' H0 K Hs Hp E| |]; subst.
    destruct (alloc_step _ _ irg i p (tagged_inv _ _ H0) K Hs Hp) as (q0 & t2 & E0 & _ & _ & N & _). rewrite E in E0. injection E0 as <- <-. rewrite last_none in N by exact D. cbn [last_tag] in N. rewrite Z.eqb_refl in N. exact N.
  - inversion H; subst; eapply IH; eauto.
  - inversion H; subst; eapply IH; eauto.
Qed.
