(** Size class arithmetic. *)
From Coq Require Import String ZArith List Bool Lia ZifyBool.
From Verif Require Import M_Base M_Config M_SizeClass P_Base.
Import ListNotations.
Open Scope Z_scope.

Lemma log2u64_eq x : 0 < x -> log2u64 x = Z.log2 x.
Proof. intros. unfold log2u64, clz64. lia. Qed.

Lemma gsi_small n : 0 < n <= 128 ->
  get_size_info n = mkSizeInfo ((n + 15) / 16 * 16) ((n - 1) / 16 + 1).
Proof.
  intros H. unfold get_size_info.
  destruct (Z.eqb_spec n 0); [lia|]. destruct (Z.leb_spec n 128); [|lia].
  change 16 with (2 ^ 4) at 1. rewrite c_align_pow2 by lia.
  rewrite (w64_small (n - 1)) by lia.
  rewrite Z.shiftr_div_pow2 by lia.
  rewrite !w64_small by (change (2^4) with 16; lia). reflexivity.
Qed.

(** the generic form above 128 *)
Lemma gsi_large n k : 128 < n < 2 ^ 64 -> 4 * 2 ^ k < n <= 8 * 2 ^ k -> 5 <= k <= 61 ->
  let real := w64 (n + (2 ^ k - 1)) / 2 ^ k * 2 ^ k in
  get_size_info n =
    mkSizeInfo real (w64 ((k - 4) * 4 + 5 + w64 (real / 2 ^ k - 5))).
Proof.
  intros Hn Hk Hk5 real. unfold get_size_info.
  destruct (Z.eqb_spec n 0); [lia|]. destruct (Z.leb_spec n 128); [lia|].
  rewrite (w64_small (n - 1)) by lia.
  rewrite log2u64_eq by lia.
  assert (Z.log2 (n - 1) = k + 2) as El.
  { apply Z.log2_unique; [lia|]. rewrite Z.pow_succ_r by lia.
    rewrite Z.pow_add_r by lia. change (2^2) with 4. lia. }
  rewrite El. replace (k + 2 - 2) with k by lia.
  assert (0 < 2 ^ k) by (apply pow2_pos; lia).
  assert (2 ^ k <= 2 ^ 61) by (apply Z.pow_le_mono_r; lia).
  rewrite (w64_small k) by lia.
  rewrite Z.shiftl_1_l.
  rewrite (w64_small (2 ^ k)) by (change (2^64) with (8 * 2^61); lia).
  rewrite c_align_pow2 by lia. rewrite Z.shiftr_div_pow2 by lia. reflexivity.
Qed.

Lemma large_shift n : 128 < n < 2 ^ 64 -> exists k, 5 <= k <= 61 /\ 4 * 2 ^ k < n <= 8 * 2 ^ k.
Proof.
  intros H. exists (Z.log2 (n - 1) - 2).
  destruct (Z.log2_spec (n - 1)) as [H1 H2]; [lia|].
  assert (7 <= Z.log2 (n - 1)) by (apply Z.log2_le_pow2; lia).
  assert (Z.log2 (n - 1) < 64) by (apply Z.log2_lt_pow2; lia).
  rewrite Z.pow_succ_r in H2 by lia.
  replace (Z.log2 (n - 1)) with ((Z.log2 (n - 1) - 2) + 2) in H1, H2 by lia.
  rewrite Z.pow_add_r in H1, H2 by lia. change (2 ^ 2) with 4 in *. lia.
Qed.

(** size part: exact, minimal, overflow iff above 7*2^61 *)
Lemma gsi_size_large n k : 128 < n < 2 ^ 64 -> 4 * 2 ^ k < n <= 8 * 2 ^ k -> 5 <= k <= 61 ->
  si_size (get_size_info n) =
  if n <=? 7 * 2 ^ 61 then (n + (2 ^ k - 1)) / 2 ^ k * 2 ^ k else 0.
Proof.
  intros Hn Hk Hk5. rewrite (gsi_large n k) by assumption. cbn [si_size].
  assert (0 < 2 ^ k) by (apply pow2_pos; lia).
  destruct (Z.leb_spec n (7 * 2 ^ 61)).
  - rewrite w64_small; [reflexivity|].
    destruct (Z.eq_dec k 61) as [->|].
    + change (2 ^ 64) with (8 * 2 ^ 61). lia.
    + assert (2 ^ k <= 2 ^ 60) by (apply Z.pow_le_mono_r; lia).
      change (2 ^ 64) with (16 * 2 ^ 60). lia.
  - assert (k = 61) as ->.
    { destruct (Z.eq_dec k 61); [assumption|].
      assert (2 ^ k <= 2 ^ 60) by (apply Z.pow_le_mono_r; lia).
      change (2 ^ 61) with (2 * 2 ^ 60) in *. lia. }
    unfold w64. change (2 ^ 64) with (8 * 2 ^ 61) in *.
    replace ((n + (2 ^ 61 - 1)) mod (8 * 2 ^ 61)) with (n + (2 ^ 61 - 1) - 8 * 2 ^ 61).
    2:{ rewrite Z.mod_eq by lia. replace ((n + (2 ^ 61 - 1)) / (8 * 2 ^ 61)) with 1; lia. }
    rewrite Z.div_small by lia. reflexivity.
Qed.

(** for every pair of neighbouring table entries (a at j-1, b at j):
    sizes in (a, b] round to (b, j) *)
Lemma pair_small i : 1 <= i <= 8 -> forall n, 16 * (i - 1) < n <= 16 * i ->
  get_size_info n = mkSizeInfo (16 * i) i.
Proof. intros Hi n Hn. rewrite gsi_small by lia. f_equal; lia. Qed.

Lemma pair_large k q : 5 <= k <= 60 -> 5 <= q <= 8 -> forall n, (q - 1) * 2 ^ k < n <= q * 2 ^ k ->
  get_size_info n = mkSizeInfo (q * 2 ^ k) ((k - 4) * 4 + q).
Proof.
  intros Hk Hq n Hn.
  assert (2 ^ 5 <= 2 ^ k) as H5 by (apply Z.pow_le_mono_r; lia). change (2 ^ 5) with 32 in H5.
  assert (2 ^ k <= 2 ^ 60) by (apply Z.pow_le_mono_r; lia).
  assert (128 < n < 2 ^ 64) by (change (2^64) with (16 * 2^60); nia).
  rewrite (gsi_large n k) by (try assumption; try lia; nia).
  set (s := 2 ^ k) in *.
  rewrite (w64_small (n + (s - 1))) by (change (2^64) with (16 * 2^60); nia).
  assert ((n + (s - 1)) / s = q) as ->.
  { symmetry. apply Z.div_unique with (n + (s - 1) - s * q); lia. }
  rewrite Z.div_mul by lia. rewrite (w64_small (q - 5)) by lia.
  rewrite w64_small by lia. f_equal; lia.
Qed.

Ltac find_pair :=
  let go k := first [ exact (pair_large k 5 ltac:(lia) ltac:(lia)) | exact (pair_large k 6 ltac:(lia) ltac:(lia))
                    | exact (pair_large k 7 ltac:(lia) ltac:(lia)) | exact (pair_large k 8 ltac:(lia) ltac:(lia)) ] in
  first [ go 5 | go 6 | go 7 | go 8 | go 9 | go 10 | go 11 | go 12 | go 13 | go 14 ].

Fixpoint pairs_ok (l : list Z) (prev : Z) (j : Z) : Prop :=
  match l with
  | [] => True
  | b :: t => (forall n, prev < n <= b -> get_size_info n = mkSizeInfo b j) /\ pairs_ok t b (j + 1)
  end.

Lemma pairs_ok_all : forall g, pairs_ok (tl (size_classes g)) 0 1.
Proof.
  intros g. unfold size_classes. destruct (EXTENDED_SIZE_CLASSES g);
  cbn [app tl pairs_ok]; cbn [Z.add Pos.add Pos.succ];
  repeat (split; [ first
    [ exact (pair_small 1 ltac:(lia)) | exact (pair_small 2 ltac:(lia)) | exact (pair_small 3 ltac:(lia))
    | exact (pair_small 4 ltac:(lia)) | exact (pair_small 5 ltac:(lia)) | exact (pair_small 6 ltac:(lia))
    | exact (pair_small 7 ltac:(lia)) | exact (pair_small 8 ltac:(lia))
    | find_pair ] | ]); exact I.
Qed.

Lemma sizes_last g : List.last (size_classes g) 0 = max_slab_size_class g.
Proof. unfold size_classes, max_slab_size_class. destruct (EXTENDED_SIZE_CLASSES g); reflexivity. Qed.

(** walking the table *)
Lemma pairs_find l : forall prev j n, pairs_ok l prev j -> prev < n <= List.last l prev ->
  exists i b, lget l i = Some b /\ get_size_info n = mkSizeInfo b (j + i) /\ n <= b /\
    (forall i' b', 0 <= i' < i -> lget l i' = Some b' -> b' < n).
Proof.
  induction l as [|b t IH]; intros prev j n Hp Hn; cbn [pairs_ok] in *.
  - simpl in Hn. lia.
  - destruct Hp as [Hb Ht]. destruct (Z_le_gt_dec n b).
    + exists 0, b. split; [reflexivity|]. split; [rewrite Hb by lia; f_equal; lia|].
      split; [lia|]. intros; lia.
    + destruct (IH b (j + 1) n Ht) as (i & b' & H1 & H2 & H3 & H4).
      { destruct t; [simpl in Hn; lia|].
        assert (List.last (b :: z :: t) prev = List.last (z :: t) prev) as E by reflexivity.
        rewrite E in Hn. split; [lia|].
        replace (List.last (z :: t) b) with (List.last (z :: t) prev); [lia|].
        clear. revert z. induction t; intros; auto. simpl in *. destruct t; auto. }
      exists (i + 1), b'. assert (0 <= i) by (apply lget_Some_range in H1; lia).
      split; [rewrite lget_S_cons by lia; assumption|]. split; [rewrite H2; f_equal; lia|].
      split; [assumption|].
      intros i' b'' Hi' Hg. destruct (Z.eq_dec i' 0) as [->|].
      * rewrite lget_0_cons in Hg. injection Hg as <-. lia.
      * replace i' with ((i' - 1) + 1) in Hg by lia. rewrite lget_S_cons in Hg by lia.
        apply (H4 (i' - 1)); [lia | assumption].
Qed.

(** The sorted table *)
Definition sortedb (l : list Z) : bool :=
  forallb (fun i => match lget l i, lget l (i + 1) with Some a, Some b => a <? b | _, _ => true end)
    (zrange 0 (zlen l)).
Lemma sizes_sorted_step g i a b :
  lget (size_classes g) i = Some a -> lget (size_classes g) (i + 1) = Some b -> a < b.
Proof.
  intros Ha Hb.
  assert (sortedb (size_classes g) = true) as S
    by (unfold size_classes; destruct (EXTENDED_SIZE_CLASSES g); vm_compute; reflexivity).
  unfold sortedb in S. rewrite forallb_zrange in S.
  specialize (S i (lget_Some_range _ _ _ Ha)). rewrite Ha, Hb in S. lia.
Qed.
Lemma sizes_mono g i j a b : i < j ->
  lget (size_classes g) i = Some a -> lget (size_classes g) j = Some b -> a < b.
Proof.
  intros Hij Ha. replace j with (i + 1 + (j - i - 1)) by lia.
  assert (0 <= j - i - 1) as Hk by lia. revert Hk b. generalize (j - i - 1) as k.
  intros k Hk. pattern k. apply natlike_ind; [| |exact Hk].
  - intros b. rewrite Z.add_0_r. now apply sizes_sorted_step.
  - intros x Hx IH b Hb. destruct (lget_in_range (size_classes g) (i + 1 + x)) as [c Hc].
    { pose proof (lget_Some_range _ _ _ Hb). pose proof (lget_Some_range _ _ _ Ha). lia. }
    specialize (IH c Hc). pose proof (sizes_sorted_step g (i + 1 + x) c b Hc).
    replace (i + 1 + x + 1) with (i + 1 + Z.succ x) in H by lia. specialize (H Hb). lia.
Qed.

Lemma sizes_tl g : size_classes g = 0 :: tl (size_classes g).
Proof. reflexivity. Qed.

Lemma gsi_spec g n : 0 <= n <= max_slab_size_class g ->
  lget (size_classes g) (si_class (get_size_info n)) = Some (si_size (get_size_info n)) /\
  n <= si_size (get_size_info n) /\
  (forall c, In c (size_classes g) -> n <= c -> si_size (get_size_info n) <= c).
Proof.
  intros Hn. destruct (Z.eq_dec n 0) as [->|].
  { cbn. split; [reflexivity|]. split; [lia|]. intros; lia. }
  destruct (pairs_find (tl (size_classes g)) 0 1 n (pairs_ok_all g)) as (i & b & H1 & H2 & H3 & H4).
  { rewrite <- sizes_last in Hn. split; [lia|]. rewrite sizes_tl in Hn. cbn [List.last] in Hn.
    destruct (tl (size_classes g)) eqn:E; [|lia]. unfold size_classes in E. discriminate. }
  assert (0 <= i) by (apply lget_Some_range in H1; lia).
  rewrite H2. cbn [si_size si_class].
  assert (lget (size_classes g) (1 + i) = Some b) as Hb.
  { rewrite sizes_tl. rewrite Z.add_comm, lget_S_cons by lia. assumption. }
  split; [assumption|]. split; [assumption|].
  intros c Hc Hnc. apply In_lget in Hc. destruct Hc as [j Hj].
  pose proof (lget_Some_range _ _ _ Hj).
  destruct (Z_lt_ge_dec j (1 + i)).
  - exfalso. destruct (Z.eq_dec j 0) as [->|].
    + rewrite sizes_tl, lget_0_cons in Hj. injection Hj as <-. lia.
    + rewrite sizes_tl in Hj. replace j with ((j - 1) + 1) in Hj by lia.
      rewrite lget_S_cons in Hj by lia. specialize (H4 (j - 1) c ltac:(lia) Hj). lia.
  - destruct (Z.eq_dec j (1 + i)) as [->|]; [rewrite Hb in Hj; injection Hj; lia|].
    pose proof (sizes_mono g (1 + i) j b c ltac:(lia) Hb Hj). lia.
Qed.

(** waste below 20% above 64 bytes (all sizes that do not overflow) *)
Lemma gsi_waste n : 64 < n <= 7 * 2 ^ 61 ->
  n <= si_size (get_size_info n) /\
  5 * (si_size (get_size_info n) - n) < si_size (get_size_info n).
Proof.
  intros Hn. destruct (Z_le_gt_dec n 128).
  - rewrite gsi_small by lia. cbn [si_size]. lia.
  - destruct (large_shift n) as (k & Hk & Hk'); [lia|].
    rewrite (gsi_size_large n k) by lia. destruct (Z.leb_spec n (7 * 2^61)); [|lia].
    assert (0 < 2 ^ k) by (apply pow2_pos; lia). set (s := 2 ^ k) in *.
    pose proof (Z.div_mod (n + (s - 1)) s ltac:(lia)).
    pose proof (Z.mod_pos_bound (n + (s - 1)) s ltac:(lia)). nia.
Qed.

(** the class sizes are fixed points *)
Lemma gsi_fix g c s : lget (size_classes g) c = Some s -> get_size_info s = mkSizeInfo s c.
Proof.
  intros H. assert (0 <= s <= max_slab_size_class g) as Hs.
  { split.
    - destruct (Z.eq_dec c 0) as [->|].
      + rewrite sizes_tl, lget_0_cons in H. injection H; lia.
      + pose proof (lget_Some_range _ _ _ H).
        pose proof (sizes_mono g 0 c 0 s ltac:(lia) eq_refl H). lia.
    - assert (exists j, lget (size_classes g) j = Some (max_slab_size_class g) /\ j = zlen (size_classes g) - 1) as (j & Hj & Ej).
      { unfold size_classes, max_slab_size_class, zlen. destruct (EXTENDED_SIZE_CLASSES g); eexists; split; [| reflexivity | | reflexivity]; reflexivity. }
      pose proof (lget_Some_range _ _ _ H). destruct (Z.eq_dec c j) as [->|]; [congruence || (rewrite Hj in H; injection H; lia)|].
      pose proof (sizes_mono g c j s _ ltac:(lia) H Hj). lia. }
  destruct (gsi_spec g s Hs) as (H1 & H2 & H3).
  specialize (H3 s (lget_In _ _ _ H) ltac:(lia)).
  assert (si_size (get_size_info s) = s) as Es by lia.
  destruct (get_size_info s) as [a b]. cbn [si_size si_class] in *. subst a. f_equal.
  destruct (Z.lt_trichotomy b c) as [L|[E|L]]; [|assumption|];
  [pose proof (sizes_mono g b c s s L H1 H) | pose proof (sizes_mono g c b s s L H H1)]; lia.
Qed.

(** ** Alignment classes *)
Lemma land_pow2m1 x k : 0 <= k -> Z.land x (2 ^ k - 1) = x mod 2 ^ k.
Proof. intros. rewrite ones_eq by lia. apply Z.land_ones. lia. Qed.

Lemma find_aligned_spec l : forall class size k info, 0 <= k < 64 ->
  find_aligned_class l class size (2 ^ k) = Some info ->
  exists i, lget l i = Some (si_size info) /\ si_class info = class + i /\
    size <= si_size info /\ si_size info mod 2 ^ k = 0 /\
    (forall i' b, 0 <= i' < i -> lget l i' = Some b -> ~ (size <= b /\ b mod 2 ^ k = 0)).
Proof.
  induction l as [|b t IH]; intros class size k info Hk; cbn [find_aligned_class]; [discriminate|].
  assert (2 ^ k <= 2 ^ 63) by (apply Z.pow_le_mono_r; lia).
  assert (0 < 2 ^ k) by (apply pow2_pos; lia).
  rewrite (w64_small (2 ^ k - 1)) by (change (2^64) with (2 * 2^63); lia).
  rewrite land_pow2m1 by lia.
  destruct ((size <=? b) && (b mod 2 ^ k =? 0)) eqn:E.
  - intros [= <-]. cbn [si_size si_class]. exists 0. rewrite lget_0_cons.
    apply andb_prop in E. repeat split; try lia.
  - intros Hf. specialize (IH (class + 1) size k info Hk).
    destruct (IH Hf) as (i & H1 & H2 & H3 & H4 & H5).
    assert (0 <= i) by (apply lget_Some_range in H1; lia).
    exists (i + 1). rewrite lget_S_cons by lia. repeat split; try assumption; try lia.
    intros i' b' Hi' Hg. destruct (Z.eq_dec i' 0) as [->|].
    + rewrite lget_0_cons in Hg. injection Hg as <-. lia.
    + replace i' with ((i' - 1) + 1) in Hg by lia. rewrite lget_S_cons in Hg by lia.
      apply (H5 (i' - 1)); [lia | assumption].
Qed.

Lemma find_aligned_exists l : forall class size k b, 0 <= k < 64 ->
  In b l -> size <= b -> b mod 2 ^ k = 0 -> exists info, find_aligned_class l class size (2 ^ k) = Some info.
Proof.
  induction l as [|x t IH]; intros class size k b Hk Hin Hs Hb; cbn [find_aligned_class]; [destruct Hin|].
  assert (2 ^ k <= 2 ^ 63) by (apply Z.pow_le_mono_r; lia).
  assert (0 < 2 ^ k) by (apply pow2_pos; lia).
  rewrite (w64_small (2 ^ k - 1)) by (change (2^64) with (2 * 2^63); lia).
  rewrite land_pow2m1 by lia.
  destruct ((size <=? x) && (x mod 2 ^ k =? 0)) eqn:E; [eauto|].
  destruct Hin as [->|Hin]; [lia|]. eapply IH; eauto.
Qed.

Lemma gsia_spec g size k : 0 <= k <= 12 -> 0 <= size <= max_slab_size_class g ->
  exists info, get_size_info_align g size (2 ^ k) = Some info /\
    lget (size_classes g) (si_class info) = Some (si_size info) /\
    1 <= si_class info /\ size <= si_size info /\ si_size info mod 2 ^ k = 0 /\
    si_size info <= max_slab_size_class g /\
    (forall c, In c (size_classes g) -> 0 < c -> size <= c -> c mod 2 ^ k = 0 -> si_size info <= c).
Proof.
  intros Hk Hs. unfold get_size_info_align.
  assert (In (max_slab_size_class g) (tl (size_classes g))) as Hmax.
  { unfold size_classes, max_slab_size_class. destruct (EXTENDED_SIZE_CLASSES g); cbn [app tl]; simpl; tauto. }
  assert (max_slab_size_class g mod 2 ^ k = 0) as Hm.
  { assert (exists q, max_slab_size_class g = q * 2 ^ 12) as [q Eq].
    { unfold max_slab_size_class. destruct (EXTENDED_SIZE_CLASSES g); [exists 32|exists 4]; reflexivity. }
    rewrite Eq. replace 12 with (12 - k + k) by lia. rewrite Z.pow_add_r by lia.
    rewrite Z.mul_assoc. apply Z.mod_mul. pose proof (pow2_pos k ltac:(lia)). lia. }
  destruct (find_aligned_exists (tl (size_classes g)) 1 size k _ ltac:(lia) Hmax ltac:(lia) Hm) as [info Hi].
  exists info. split; [assumption|].
  assert (0 <= k < 64) as Hk64 by lia.
  destruct (find_aligned_spec _ _ _ _ _ Hk64 Hi) as (i & H1 & H2 & H3 & H4 & H5).
  assert (0 <= i) by (apply lget_Some_range in H1; lia).
  assert (lget (size_classes g) (si_class info) = Some (si_size info)) as HL.
  { rewrite H2, sizes_tl. replace (1 + i) with (i + 1) by lia. rewrite lget_S_cons by lia. assumption. }
  assert (forall c, In c (size_classes g) -> 0 < c -> size <= c -> c mod 2 ^ k = 0 -> si_size info <= c) as Hmin.
  { intros c Hc H0 Hsc Hmc. apply In_lget in Hc. destruct Hc as [j Hj].
    pose proof (lget_Some_range _ _ _ Hj).
    destruct (Z_lt_ge_dec j (1 + i)).
    - exfalso. destruct (Z.eq_dec j 0) as [->|].
      + rewrite sizes_tl, lget_0_cons in Hj. injection Hj as <-. lia.
      + rewrite sizes_tl in Hj. replace j with ((j - 1) + 1) in Hj by lia.
        rewrite lget_S_cons in Hj by lia. apply (H5 (j - 1) c ltac:(lia) Hj). auto.
    - rewrite H2 in HL. destruct (Z.eq_dec j (1 + i)) as [->|]; [rewrite HL in Hj; injection Hj; lia|].
      pose proof (sizes_mono g (1 + i) j _ c ltac:(lia) HL Hj). lia. }
  repeat split; try assumption; try lia.
  apply Hmin; try assumption; try lia.
  - rewrite sizes_tl. now right.
  - unfold max_slab_size_class. destruct (EXTENDED_SIZE_CLASSES g); lia.
Qed.

(** ** Per-class constants *)
Definition class_check (g : config) (c : Z) : bool :=
  let s := slot_size g c in let n := get_slots g c in let b := slab_size_of g c in
  (16 <=? s) && (s <=? 131072) && (s mod 16 =? 0) &&
  (1 <=? n) && (n <=? 256) &&
  (b mod 4096 =? 0) && (4096 <=? b) && (b <=? 131072) && (n * s <=? b) &&
  (b <=? 256 * s) && (b - n * s <? 4096) &&
  (s <=? max_slab_size_class g) &&
  (0 <=? quarantine_shift g s) && (quarantine_shift g s <=? MAX_SLAB_SIZE_CLASS_SHIFT g - 4) &&
  (class_size g c =? (if c =? 0 then 0 else s)) &&
  (negb (20480 <=? s) || ((n =? 1) && (b =? s))) &&
  (if 1 <? n then true else 4096 <=? s) && (b <=? 1048576 / 8).

Lemma class_check_all g c : 0 <= c < N_SIZE_CLASSES g -> class_check g c = true.
Proof.
  revert c. apply forallb_zrange.
  unfold N_SIZE_CLASSES, class_check, quarantine_shift, MAX_SLAB_SIZE_CLASS_SHIFT, slab_size_of, slot_size,
    max_slab_size_class, class_size, get_slots, size_classes, size_class_slots.
  destruct (EXTENDED_SIZE_CLASSES g); vm_compute; reflexivity.
Qed.

Record class_facts (g : config) (c : Z) : Prop := {
  cf_s16 : 16 <= slot_size g c <= 131072;
  cf_smod : slot_size g c mod 16 = 0;
  cf_slots : 1 <= get_slots g c <= 256;
  cf_bmod : slab_size_of g c mod 4096 = 0;
  cf_b : 4096 <= slab_size_of g c <= 131072;
  cf_fit : get_slots g c * slot_size g c <= slab_size_of g c;
  cf_bits : slab_size_of g c <= 256 * slot_size g c;
  cf_tail : slab_size_of g c - get_slots g c * slot_size g c < 4096;
  cf_max : slot_size g c <= max_slab_size_class g;
  cf_shift : 0 <= quarantine_shift g (slot_size g c) <= MAX_SLAB_SIZE_CLASS_SHIFT g - 4;
  cf_size : class_size g c = if c =? 0 then 0 else slot_size g c;
  cf_ext : 20480 <= slot_size g c -> get_slots g c = 1 /\ slab_size_of g c = slot_size g c
}.
Lemma class_facts_all g c : 0 <= c < N_SIZE_CLASSES g -> class_facts g c.
Proof.
  intros H. apply class_check_all in H. unfold class_check in H.
  repeat (apply andb_prop in H; destruct H as [H ?]).
  constructor; try lia.
Qed.

Lemma N_SIZE_CLASSES_eq g : N_SIZE_CLASSES g = if EXTENDED_SIZE_CLASSES g then 49 else 37.
Proof. unfold N_SIZE_CLASSES, size_classes. destruct (EXTENDED_SIZE_CLASSES g); reflexivity. Qed.
Lemma N_SIZE_CLASSES_bound g : 37 <= N_SIZE_CLASSES g <= 49.
Proof. rewrite N_SIZE_CLASSES_eq. destruct (EXTENDED_SIZE_CLASSES g); lia. Qed.

Lemma class_size_lget g c s : lget (size_classes g) c = Some s -> class_size g c = s.
Proof. unfold class_size. now intros ->. Qed.
Lemma class_size_some g c : 0 <= c < N_SIZE_CLASSES g -> lget (size_classes g) c = Some (class_size g c).
Proof. intros H. unfold class_size. destruct (lget_in_range _ _ H) as [x ->]. reflexivity. Qed.
Lemma max_slab_bounds g : 16384 <= max_slab_size_class g <= 131072.
Proof. unfold max_slab_size_class. destruct (EXTENDED_SIZE_CLASSES g); lia. Qed.

Lemma gsi_class_range g n : 0 <= n <= max_slab_size_class g ->
  0 <= si_class (get_size_info n) < N_SIZE_CLASSES g /\
  class_size g (si_class (get_size_info n)) = si_size (get_size_info n) /\
  (si_class (get_size_info n) = 0 <-> n = 0).
Proof.
  intros H. destruct (gsi_spec g n H) as (H1 & H2 & H3).
  split; [exact (lget_Some_range _ _ _ H1)|]. split; [now apply class_size_lget|].
  split; intros E.
  - rewrite E in H1. rewrite sizes_tl, lget_0_cons in H1. injection H1 as H1. lia.
  - subst. reflexivity.
Qed.

(** ** Large classes *)
Lemma large_class_all g n : 16384 < n < 2 ^ 64 ->
  let r := get_large_size_class g n in
  (r = 0 <-> (if LARGE_SIZE_CLASSES g then 7 * 2 ^ 61 < n else 2 ^ 64 - 4096 < n)) /\
  0 <= r < 2 ^ 64 /\ r mod 4096 = 0 /\
  (r <> 0 -> n <= r /\ 4 * (r - n) <= n).
Proof.
  intros Hn r. unfold r, get_large_size_class. destruct (LARGE_SIZE_CLASSES g).
  - rewrite Z.max_l by (unfold PAGE_SIZE; lia).
    destruct (large_shift n) as (k & Hk & Hk'); [lia|].
    rewrite (gsi_size_large n k) by lia.
    assert (12 <= k) as Hk12.
    { destruct (Z_le_gt_dec 12 k); [assumption|].
      assert (2 ^ k <= 2 ^ 11) by (apply Z.pow_le_mono_r; lia).
      change (2 ^ 11) with 2048 in *. lia. }
    assert (0 < 2 ^ k) by (apply pow2_pos; lia).
    destruct (Z.leb_spec n (7 * 2 ^ 61)).
    2:{ repeat split; try lia. }
    set (s := 2 ^ k) in *.
    pose proof (Z.div_mod (n + (s - 1)) s ltac:(lia)) as D.
    pose proof (Z.mod_pos_bound (n + (s - 1)) s ltac:(lia)) as B.
    set (q := (n + (s - 1)) / s) in *.
    assert (n <= q * s /\ q * s - n < s) as [L1 L2] by lia.
    split; [split; lia|]. split.
    { split; [lia|]. destruct (Z.eq_dec k 61) as [E|].
      - assert (s = 2 ^ 61) as -> by (unfold s; now rewrite E).
        change (2^64) with (8 * 2^61). nia.
      - assert (s <= 2 ^ 60) by (apply Z.pow_le_mono_r; lia). change (2 ^ 64) with (16 * 2 ^ 60). lia. }
    split.
    { assert (s = 4096 * 2 ^ (k - 12)) as -> by (unfold s; replace k with (12 + (k - 12)) at 1 by lia; rewrite Z.pow_add_r by lia; reflexivity).
      rewrite Z.mul_assoc, Z.mul_shuffle0. apply Z.mod_mul. lia. }
    intros _. split; [lia|]. lia.
  - unfold r, get_large_size_class in *.
    rewrite page_align_eq by lia. destruct (Z_le_gt_dec n (2 ^ 64 - 4096)).
    + rewrite w64_small by lia. repeat split; try lia.
    + assert (w64 (n + 4095) = n + 4095 - 2 ^ 64) as ->.
      { unfold w64. rewrite Z.mod_eq by lia. replace ((n + 4095) / 2 ^ 64) with 1; lia. }
      rewrite Z.div_small by lia. repeat split; try lia.
Qed.
