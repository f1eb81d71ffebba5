(** The size class functions against the independent specification. *)
From Coq Require Import String ZArith List Bool Lia ZifyBool.
From Verif Require Import M_Base M_Config M_SizeClass S_SizeClass P_Base P_SizeClass.
Import ListNotations.
Open Scope Z_scope.

Lemma geometric_least n k : 0 <= k -> 4 * 2 ^ k < n <= 8 * 2 ^ k ->
  least geometric n ((n + (2 ^ k - 1)) / 2 ^ k * 2 ^ k).
Proof.
  intros Hk Hn. pose proof (pow2_pos k Hk) as P. set (s := 2 ^ k) in *.
  pose proof (Z.div_mod (n + (s - 1)) s ltac:(lia)) as D.
  pose proof (Z.mod_pos_bound (n + (s - 1)) s ltac:(lia)) as B.
  set (q := (n + (s - 1)) / s) in *.
  split; [|split].
  - exists k, q. split; [lia|]. split; [|reflexivity].
    assert (4 < q) by nia. assert (q < 9) by nia. lia.
  - lia.
  - intros r (k' & q' & Hk' & Hq' & ->) Hr.
    destruct (Z_lt_ge_dec k' k).
    + exfalso. assert (2 * 2 ^ k' <= s).
      { unfold s. rewrite <- Z.pow_succ_r by lia. apply Z.pow_le_mono_r; lia. }
      nia.
    + replace k' with (k + (k' - k)) in * by lia. rewrite Z.pow_add_r in * by lia.
      pose proof (pow2_pos (k' - k) ltac:(lia)). fold s in Hr |- *.
      set (m := q' * 2 ^ (k' - k)).
      replace (q' * (s * 2 ^ (k' - k))) with (m * s) in * by (unfold m; ring).
      assert (q <= m); [|nia].
      assert (q * s < (m + 1) * s) by nia. nia.
Qed.

Lemma large_rounding g n : 16384 < n < 2 ^ 64 ->
  exists t, least (if LARGE_SIZE_CLASSES g then geometric else page_multiple) n t /\
    get_large_size_class g n = if t <? 2 ^ 64 then t else 0.
Proof.
  intros Hn. unfold get_large_size_class. destruct (LARGE_SIZE_CLASSES g).
  - rewrite Z.max_l by (unfold PAGE_SIZE; lia).
    destruct (large_shift n) as (k & Hk & Hk'); [lia|].
    exists ((n + (2 ^ k - 1)) / 2 ^ k * 2 ^ k). split; [apply geometric_least; lia|].
    rewrite (gsi_size_large n k) by lia.
    pose proof (pow2_pos k ltac:(lia)) as P. set (s := 2 ^ k) in *.
    pose proof (Z.div_mod (n + (s - 1)) s ltac:(lia)) as D.
    pose proof (Z.mod_pos_bound (n + (s - 1)) s ltac:(lia)) as B.
    set (q := (n + (s - 1)) / s) in *.
    destruct (Z.eq_dec k 61) as [E|].
    + assert (s = 2 ^ 61) as Es by (unfold s; now rewrite E). change (2 ^ 64) with (8 * 2 ^ 61). rewrite <- Es in *.
      destruct (Z.leb_spec n (7 * s)), (Z.ltb_spec (q * s) (8 * s)); try reflexivity; nia.
    + assert (s <= 2 ^ 60) as L by (apply Z.pow_le_mono_r; lia).
      change (2 ^ 64) with (16 * 2 ^ 60). change (2 ^ 61) with (2 * 2 ^ 60).
      destruct (Z.leb_spec n (7 * (2 * 2 ^ 60))), (Z.ltb_spec (q * s) (16 * 2 ^ 60)); try reflexivity; lia.
  - exists ((n + 4095) / 4096 * 4096). split.
    + split; [eexists; reflexivity|]. split; [lia|]. intros r (k & ->) Hr. lia.
    + rewrite page_align_eq by lia. destruct (Z.ltb_spec ((n + 4095) / 4096 * 4096) (2 ^ 64)).
      * rewrite w64_small by lia. reflexivity.
      * assert (w64 (n + 4095) = n + 4095 - 2 ^ 64) as ->.
        { unfold w64. rewrite Z.mod_eq by lia. replace ((n + 4095) / 2 ^ 64) with 1; lia. }
        rewrite Z.div_small by lia. reflexivity.
Qed.

Lemma geometric_bound max x : 128 < x <= 2 ^ max -> 0 <= max -> geometric x ->
  exists k q, 5 <= k < max /\ 5 <= q <= 8 /\ x = q * 2 ^ k.
Proof.
  intros Hx Hm (k & q & Hk & Hq & ->). exists k, q. split; [|auto]. pose proof (pow2_pos k Hk). split.
  - destruct (Z_le_gt_dec 5 k); [assumption|]. exfalso.
    assert (2 ^ k <= 2 ^ 4) by (apply Z.pow_le_mono_r; lia). change (2 ^ 4) with 16 in *. nia.
  - destruct (Z_lt_ge_dec k max); [assumption|]. exfalso.
    assert (2 ^ max <= 2 ^ k) by (apply Z.pow_le_mono_r; lia). nia.
Qed.

Lemma existsb_In x l : existsb (Z.eqb x) l = true -> In x l.
Proof. intros H. apply existsb_exists in H. destruct H as (y & Hy & E). apply Z.eqb_eq in E. now subst. Qed.

Lemma table_spec g x : In x (size_classes g) <-> slab_class (max_slab_size_class g) x.
Proof.
  split.
  - intros H. unfold size_classes, max_slab_size_class in *.
    assert (forall k q, 5 <= k -> 5 <= q <= 8 -> geometric (q * 2 ^ k)) as G by (intros k q ? ?; exists k, q; lia).
    assert (forall k m, 1 <= k <= 8 -> slab_class m (16 * k)) as Sm by (intros k m ?; right; left; exists k; lia).
    destruct (EXTENDED_SIZE_CLASSES g); cbn [app] in H;
    repeat (destruct H as [H|H]; [subst x; first
      [ left; reflexivity
      | exact (Sm 1 _ ltac:(lia)) | exact (Sm 2 _ ltac:(lia)) | exact (Sm 3 _ ltac:(lia)) | exact (Sm 4 _ ltac:(lia))
      | exact (Sm 5 _ ltac:(lia)) | exact (Sm 6 _ ltac:(lia)) | exact (Sm 7 _ ltac:(lia)) | exact (Sm 8 _ ltac:(lia))
      | right; right; split; [lia|]; first
        [ exact (G 5 5 ltac:(lia) ltac:(lia)) | exact (G 5 6 ltac:(lia) ltac:(lia)) | exact (G 5 7 ltac:(lia) ltac:(lia)) | exact (G 5 8 ltac:(lia) ltac:(lia))
        | exact (G 6 5 ltac:(lia) ltac:(lia)) | exact (G 6 6 ltac:(lia) ltac:(lia)) | exact (G 6 7 ltac:(lia) ltac:(lia)) | exact (G 6 8 ltac:(lia) ltac:(lia))
        | exact (G 7 5 ltac:(lia) ltac:(lia)) | exact (G 7 6 ltac:(lia) ltac:(lia)) | exact (G 7 7 ltac:(lia) ltac:(lia)) | exact (G 7 8 ltac:(lia) ltac:(lia))
        | exact (G 8 5 ltac:(lia) ltac:(lia)) | exact (G 8 6 ltac:(lia) ltac:(lia)) | exact (G 8 7 ltac:(lia) ltac:(lia)) | exact (G 8 8 ltac:(lia) ltac:(lia))
        | exact (G 9 5 ltac:(lia) ltac:(lia)) | exact (G 9 6 ltac:(lia) ltac:(lia)) | exact (G 9 7 ltac:(lia) ltac:(lia)) | exact (G 9 8 ltac:(lia) ltac:(lia))
        | exact (G 10 5 ltac:(lia) ltac:(lia)) | exact (G 10 6 ltac:(lia) ltac:(lia)) | exact (G 10 7 ltac:(lia) ltac:(lia)) | exact (G 10 8 ltac:(lia) ltac:(lia))
        | exact (G 11 5 ltac:(lia) ltac:(lia)) | exact (G 11 6 ltac:(lia) ltac:(lia)) | exact (G 11 7 ltac:(lia) ltac:(lia)) | exact (G 11 8 ltac:(lia) ltac:(lia))
        | exact (G 12 5 ltac:(lia) ltac:(lia)) | exact (G 12 6 ltac:(lia) ltac:(lia)) | exact (G 12 7 ltac:(lia) ltac:(lia)) | exact (G 12 8 ltac:(lia) ltac:(lia))
        | exact (G 13 5 ltac:(lia) ltac:(lia)) | exact (G 13 6 ltac:(lia) ltac:(lia)) | exact (G 13 7 ltac:(lia) ltac:(lia)) | exact (G 13 8 ltac:(lia) ltac:(lia))
        | exact (G 14 5 ltac:(lia) ltac:(lia)) | exact (G 14 6 ltac:(lia) ltac:(lia)) | exact (G 14 7 ltac:(lia) ltac:(lia)) | exact (G 14 8 ltac:(lia) ltac:(lia)) ] ] | ]);
    destruct H.
  - intros [->|[(k & Hk & ->)|[Hx G]]].
    + now left.
    + assert (In k (zrange 1 9)) as Hin by (apply in_zrange; lia). cbn in Hin.
      unfold size_classes. apply in_or_app. left.
      repeat (destruct Hin as [<-|Hin]; [cbn; tauto|]). destruct Hin.
    + unfold max_slab_size_class, size_classes in *. destruct (EXTENDED_SIZE_CLASSES g).
      * apply (geometric_bound 17) in G; [|change (2 ^ 17) with 131072; lia|lia].
        destruct G as (k & q & Hk & Hq & ->).
        assert (k <= 14) as Hk14.
        { destruct (Z_le_gt_dec k 14); [assumption|]. exfalso. assert (2 ^ 15 <= 2 ^ k) by (apply Z.pow_le_mono_r; lia).
          change (2 ^ 15) with 32768 in *. nia. }
        apply existsb_In. revert q Hq Hx. 
        match goal with |- forall q, _ -> _ -> existsb (Z.eqb (q * 2 ^ k)) ?l = true =>
          assert (forall k, 5 <= k < 15 -> forallb (fun q => existsb (Z.eqb (q * 2 ^ k)) l) (zrange 5 9) = true) as T
            by (apply forallb_zrange; vm_compute; reflexivity) end.
        intros q Hq _. specialize (T k ltac:(lia)). rewrite forallb_zrange in T. apply T. lia.
      * apply (geometric_bound 14) in G; [|change (2 ^ 14) with 16384; lia|lia].
        destruct G as (k & q & Hk & Hq & ->).
        assert (k <= 11) as Hk11.
        { destruct (Z_le_gt_dec k 11); [assumption|]. exfalso. assert (2 ^ 12 <= 2 ^ k) by (apply Z.pow_le_mono_r; lia).
          change (2 ^ 12) with 4096 in *. nia. }
        apply existsb_In. revert q Hq Hx. 
        match goal with |- forall q, _ -> _ -> existsb (Z.eqb (q * 2 ^ k)) ?l = true =>
          assert (forall k, 5 <= k < 12 -> forallb (fun q => existsb (Z.eqb (q * 2 ^ k)) l) (zrange 5 9) = true) as T
            by (apply forallb_zrange; vm_compute; reflexivity) end.
        intros q Hq _. specialize (T k ltac:(lia)). rewrite forallb_zrange in T. apply T. lia.
Qed.

Lemma small_rounding g n : 0 <= n <= max_slab_size_class g ->
  let info := get_size_info n in
  least (slab_class (max_slab_size_class g)) n (si_size info) /\
  nth_error (size_classes g) (Z.to_nat (si_class info)) = Some (si_size info) /\ 0 <= si_class info.
Proof.
  intros Hn info. destruct (gsi_spec g n Hn) as (H1 & H2 & H3). subst info.
  split; [|split].
  - split; [apply table_spec; eapply lget_In; eassumption|]. split; [exact H2|].
    intros r Hr Hnr. apply H3; [now apply table_spec|exact Hnr].
  - pose proof (lget_Some_range _ _ _ H1). unfold lget in H1. destruct (Z.ltb_spec (si_class (get_size_info n)) 0); [lia|exact H1].
  - pose proof (lget_Some_range _ _ _ H1). lia.
Qed.

Lemma small_rounding_aligned g n k : 0 <= k <= 12 -> 0 <= n <= max_slab_size_class g ->
  exists info, get_size_info_align g n (2 ^ k) = Some info /\
  least (fun x => slab_class (max_slab_size_class g) x /\ 0 < x /\ (2 ^ k | x)) n (si_size info) /\
  nth_error (size_classes g) (Z.to_nat (si_class info)) = Some (si_size info) /\ 0 <= si_class info.
Proof.
  intros Hk Hn. destruct (gsia_spec g n k Hk Hn) as (info & E & H1 & H2 & H3 & H4 & H5 & H6).
  pose proof (pow2_pos k ltac:(lia)).
  exists info. split; [exact E|]. split; [|split; [|lia]].
  - split; [|split; [exact H3|]].
    + split; [apply table_spec; eapply lget_In; eassumption|]. split; [|now apply Z.mod_divide; [lia|]].
      pose proof (sizes_mono g 0 (si_class info) 0 (si_size info) ltac:(lia) eq_refl H1). lia.
    + intros r (Hr & H0 & Hd) Hnr. apply H6; auto; [now apply table_spec|]. apply Z.mod_divide; [lia|auto].
  - unfold lget in H1. destruct (Z.ltb_spec (si_class info) 0); [lia|exact H1].
Qed.
