(** The allocation functions as steps on the set of blocks. *)
From Coq Require Import String ZArith List Bool Lia ZifyBool Permutation.
From Verif Require Import M_Base M_Config M_SizeClass M_Libdivide M_OS M_Random M_Slab M_Region M_Api M_Hist
  P_Base P_Count P_SizeClass P_Libdivide P_Random P_Bitmap P_Bitmap2 P_OS P_Links P_Slab1 P_Slab2 P_Slab3 P_Slab4 P_Slab9 P_Slab10 P_Slab11 P_Path
  P_Region P_Region2 P_Heap1 P_Heap2 P_Heap3 P_Heap4 P_Heap5 P_Heap6 P_Heap7 P_Init P_Heap8.
Import ListNotations.
Open Scope Z_scope.
Ltac Zify.zify_post_hook ::= idtac.

(** ** stores to accessible memory *)
Record poke (D : Z -> Prop) (o o' : os) : Prop := {
  pk_pages : pages o' = pages o;
  pk_rw : forall x, mem o' x <> mem o x -> pages o (page_of x) = Some PRW;
  pk_mem : forall x, ~ D x -> mem o' x = mem o x;
  pk_later : later o o'
}.
Lemma cinv_poke g k o o' c : pages o' = pages o -> (forall x, mem o' x <> mem o x -> pages o (page_of x) = Some PRW) -> cinv g k o c -> cinv g k o' c.
Proof.
  intros P M (E & F & PP & I & S). exists E, F, PP. split; [|exact S]. destruct I as [a b d e f h [p1 p2 p3 p4] l m n]. constructor; auto. constructor; rewrite P; auto.
  intros x H1 H2. destruct (Z.eq_dec (mem o' x) (mem o x)) as [->|N]; [auto|]. rewrite (M x N) in H2. discriminate.
Qed.
Lemma ginv_poke g s LL X o' : ginv g s LL X -> onward (st_os s) o' -> pages o' = pages (st_os s) -> (forall x, mem o' x <> mem (st_os s) x -> pages (st_os s) (page_of x) = Some PRW) -> ginv g (set_st_os o' s) LL X.
Proof.
  intros [a b c d e f h i j k gp gc gt] ON P M. constructor; auto.
  - destruct b; constructor; auto.
  - intros x y H. destruct (c x y H) as [A [B1 B2 B3]]. split; [eapply cinv_poke; eauto|constructor; auto].
  - intros r Hr. destruct (h r Hr). cbn [set_st_os st_os]. constructor; auto; rewrite P; auto.
  - intros fl q H1 H2. cbn [set_st_os st_os]. rewrite P. auto.
  - intros fl q H1 H2. cbn [set_st_os st_os]. rewrite P. eapply k; eauto.
  - intros q H1 H2. cbn [set_st_os st_os]. rewrite P. apply gp; auto.
  - intros SL Q fl q H1 H2. cbn [set_st_os st_os]. rewrite P. apply (gc SL (unrefused_back _ _ ON Q) fl q H1 H2).
  - intros SL Q. cbn [set_st_os st_os] in *. rewrite P. exact (gt SL (unrefused_back _ _ ON Q)).
Qed.
Lemma hinv_poke g s LL D o' : hinv g s LL -> poke D (st_os s) o' -> hinv g (set_st_os o' s) LL.
Proof. intros [I O S A C SC] [P1 P2 P3 P4]. constructor; auto. apply ginv_poke; auto. Qed.
Lemma block_ext g s s' LL p n : st_cls s' = st_cls s -> block g s' LL p n <-> block g s LL p n.
Proof. intros E. unfold block, sblk. rewrite E. tauto. Qed.
(** a byte that belongs to a block is neither part of a canary nor of a free slot *)
Lemma block_not_canary g s LL X p n x a k i j : ginv g s LL X -> block g s LL p n -> p <= x < p + n -> class_in g a k -> 0 <= j < get_slots g k -> k <> 0 ->
  granted (st_cls s a k) i j = true -> SLAB_CANARY g = true -> ~ sptr g k (st_cls s a k) i j + slot_size g k - 8 <= x < sptr g k (st_cls s a k) i j + slot_size g k.
Proof.
  intros I B Hx C Hj Nk Hg Sc H. pose proof (class_facts_all g k (proj2 C)) as CF.
  assert (sblk g s a k i j (sptr g k (st_cls s a k) i j)) as SB by (split; auto).
  destruct B as [(a' & k' & i' & j' & B & ->)|(gd & B)].
  - pose proof (usable_bounds g k' ltac:(apply B)).
    destruct (sblk_apart g s LL X I _ _ _ _ _ _ _ _ _ _ x SB B) as (-> & -> & -> & ->); [destruct CF; lia|lia|].
    destruct B as (_ & _ & _ & ->). unfold usable_of in Hx. replace (k' =? 0) with false in Hx by lia. unfold canary_size in Hx. rewrite Sc in Hx. lia.
  - destruct (sblk_extent g s LL X I _ _ _ _ _ SB x) as [E _]; [destruct CF; lia|]. rewrite (region_not_slab g s LL X I _ B x) in E; [discriminate|cbn; lia].
Qed.
Lemma block_not_free g s LL X p n x a k i j : ginv g s LL X -> block g s LL p n -> p <= x < p + n -> class_in g a k -> 0 <= i < get_metadata_max g (slab_size_of g k) -> 0 <= j < get_slots g k ->
  granted (st_cls s a k) i j = false -> ~ sptr g k (st_cls s a k) i j <= x < sptr g k (st_cls s a k) i j + slot_size g k.
Proof.
  intros I B Hx C Hi Hj Hg H. pose proof (ggeom g s LL X I a k C) as G. pose proof (slot_in_slab g k _ G i j Hj). pose proof (slab_in_region g k _ G i Hi).
  pose proof (class_region_lo g s LL X I a k x C ltac:(lia)) as R. destruct (class_of_addr g s (gi_u _ _ _ _ I) (gi_pl _ _ _ _ I) a k x C R) as [E1 E2].
  destruct B as [(a' & k' & i' & j' & B & ->)|(gd & B)].
  - pose proof (usable_bounds g k' ltac:(apply B)). destruct (sblk_extent g s LL X I _ _ _ _ _ B x ltac:(lia)) as (_ & E3 & _). assert (a' = a /\ k' = k) as [-> ->] by (split; congruence).
    destruct B as (_ & Hj' & Hg' & ->). destruct (sptr_apart g k _ G i j i' j' x Hj Hj' H ltac:(lia)) as [-> ->]. congruence.
  - rewrite (region_not_slab g s LL X I _ B x) in E1; [discriminate|cbn; lia].
Qed.
Lemma clean_poke g s LL X o' : ginv g s LL X -> (forall x, mem o' x <> mem (st_os s) x -> exists p n, block g s LL p n /\ p <= x < p + n) -> clean g s -> clean g (set_st_os o' s).
Proof.
  intros I M [Cc Cz]. constructor.
  - intros a k i j C Hj Hg. cbn [set_st_os st_cls st_os] in *. intros Sc Nk. rewrite <- (Cc a k i j C Hj Hg Sc Nk). apply u64_same. intros x Hx.
    destruct (Z.eq_dec (mem o' x) (mem (st_os s) x)) as [E|N]; [auto|]. destruct (M x N) as (p & n & B & Hp).
    elim (block_not_canary g s LL X p n x a k i j I B Hp C Hj Nk Hg Sc). lia.
  - intros ZF a k i j x C Nk Hi Hj Hg Hx. cbn [set_st_os st_cls st_os] in *. destruct (Z.eq_dec (mem o' x) (mem (st_os s) x)) as [->|N]; [eapply Cz; eauto|]. destruct (M x N) as (p & n & B & Hp).
    elim (block_not_free g s LL X p n x a k i j I B Hp C Hi Hj Hg). pose proof (canary_le g). lia.
Qed.
Lemma slot_block g s LL X p n x a k i j q : ginv g s LL X -> block g s LL p n -> p <= x < p + n -> sblk g s a k i j q -> q <= x < q + slot_size g k -> p = q.
Proof.
  intros I B Hx SB Hq. destruct B as [(a' & k' & i' & j' & B & ->)|(gd & B)].
  - pose proof (usable_bounds g k' ltac:(apply B)). destruct (sblk_apart g s LL X I _ _ _ _ _ _ _ _ _ _ x SB B) as (-> & -> & -> & ->); [lia|lia|].
    destruct B as (_ & _ & _ & ->), SB as (_ & _ & _ & ->). reflexivity.
  - destruct (sblk_extent g s LL X I _ _ _ _ _ SB x Hq) as [E _]. rewrite (region_not_slab g s LL X I _ B x) in E; [discriminate|cbn; lia].
Qed.
(** stores into the block that a step has just created *)
Lemma hstep_poke g s LL s1 LL1 rm p n o' : hstep g s LL s1 LL1 rm (Some (p, n)) -> hinv g s1 LL1 -> poke (fun x => p <= x < p + n) (st_os s1) o' ->
  hstep g s LL (set_st_os o' s1) LL1 rm (Some (p, n)).
Proof.
  intros [A B C D [H1 H2 H3 H4 H5 H6 H7 H8] HB HG] HI [P1 P2 P3 P4]. assert (block g s1 LL1 p n) as BN by (apply A; right; reflexivity).
  constructor.
  - intros q m. rewrite (block_ext g s1 (set_st_os o' s1)) by reflexivity. apply A.
  - exact B.
  - intros q m x H N Hx. cbn [set_st_os st_os]. rewrite P3; [eapply C; eauto|]. intros Hp.
    assert (block g s1 LL1 q m) as BQ by (apply A; left; auto). pose proof (block_disjoint g s1 LL1 [] (hi_inv _ _ _ HI) _ _ _ _ x BQ BN Hx Hp) as ->.
    elim N. eapply B; eauto.
  - intros Cl. eapply clean_poke; [apply HI| |apply D, Cl]. intros x Hx. exists p, n. split; [exact BN|]. destruct (Z_le_dec p x), (Z_lt_dec x (p + n)); auto; elim Hx; apply P3; lia.
  - assert (forall a k i j q, sblk g (set_st_os o' s1) a k i j q <-> sblk g s1 a k i j q) as SB by (intros; unfold sblk; reflexivity). constructor.
    + eapply later_trans; [exact H1|exact P4].
    + intros a k Ck. cbn [set_st_os st_os st_cls]. eapply cp_time; [apply H2, Ck|exact P4].
    + intros a k i j q Hs N. destruct (H3 a k i j q Hs N) as (X1 & X2 & X3). rewrite SB. split; [auto|]. split; [exact X2|]. intros x Hx. cbn [set_st_os st_os]. rewrite P3; [auto|]. intros Hp.
      pose proof (slot_block g s1 LL1 [] _ _ _ _ _ _ _ _ (hi_inv _ _ _ HI) BN Hp X1 Hx) as ->. elim N. eapply (B q n (usable_of g k)); [auto|]. left. exists a, k, i, j. auto.
    + intros a k i j q m E N Hs. apply (proj1 (SB a k i j q)) in Hs. injection E as <- <-. intros Sc Nk. cbn [set_st_os st_os st_cls]. rewrite <- (H4 a k i j p n eq_refl N Hs Sc Nk). apply u64_same. intros x Hx.
      apply P3. intros Hp. eapply (block_not_canary g s1 LL1 [] p n x a k i j); try eassumption; try apply Hs; [apply HI|]. destruct (class_facts_all g k (proj2 (proj1 Hs))). lia.
    + intros a k i j q m E N Hs. apply (proj1 (SB a k i j q)) in Hs. eapply H5; eauto.
    + intros a k i j q Hs. apply (proj1 (SB a k i j q)) in Hs. apply H6, Hs.
    + exact H7.
    + intros a k i j q m Hr E Hs. destruct (H8 a k i j q m Hr E Hs) as (X1 & X2 & X3). rewrite SB. split; [auto|]. split; [exact X2|]. intros x Hx. cbn [set_st_os st_os]. rewrite P3; [auto|]. injection E as <- <-.
      assert (block g s1 LL1 p (usable_of g k)) as B2 by (left; exists a, k, i, j; auto). rewrite (block_fun g s1 LL1 [] (hi_inv _ _ _ HI) _ _ _ BN B2). lia.
  - exact HB.
  - exact HG.
Qed.

(** ** alloc *)
Definition steady (g : config) (s : state) : Prop := is_init s = true -> clean g s.
Definition tfull (g : config) (s : state) : Prop := MAX_REGION_TABLE_SIZE g < 2 * (if is_init s then ra_total (st_ra s) else 128).
Definition api_fault (g : config) (s : state) (f : fault) : Prop :=
  sys_fault f \/ rng_fault f \/ (init_fault f /\ is_init s = false) \/ (f = Fatal "detected write after free" /\ WRITE_AFTER_FREE_CHECK g = true /\ ~ steady g s).
Record ares (g : config) (s : state) (LL : regs) (s' : state) (LL' : regs) (p n : Z) : Prop := {
  ar_inv : hinv g s' LL';
  ar_step : hstep g s LL s' LL' None (Some (p, n));
  ar_zero : ZERO_ON_FREE g = true -> steady g s -> forall x, p <= x < p + n -> mem (st_os s') x = 0;
  ar_clean : steady g s -> clean g s'
}.
Record anone (g : config) (s : state) (LL : regs) (s' : state) : Prop := {
  an_inv : ready g s' LL;
  an_step : hstep g s LL s' LL None None;
  an_left : ra_leftover (st_ra s') = false;
  an_clean : steady g s -> steady g s'
}.
Lemma alloc_wp g tid s LL size : ready g s LL -> ra_leftover (st_ra s) = false -> 0 <= size < 2 ^ 64 ->
  wp (run (alloc g tid size)) s (fun r s' =>
     match r with
     | None => anone g s LL s' /\ is_init s' = true /\ (errno (st_os s') = ENOMEM \/ tfull g s /\ max_slab_size_class g < size)
     | Some p => exists LL', ares g s LL s' LL' p (grant g size) /\ shape g s' LL LL' size p
     end) (api_fault g s).
Proof.
  intros R Le Hs. unfold alloc. apply wp_run_pbind. eapply wp_mono; [apply (init_call_wp g tid s LL R)| |intros f [H1 H2]; right; right; left; auto].
  intros arena s1 (Ha & [i1 i2 i3 i4 i5 i7 i6]).
  assert (steady g s -> clean g s1) as CL. { intros H. destruct (is_init s) eqn:E; [apply (hs_clean _ _ _ _ _ _ _ i2); auto|auto]. }
  eapply wp_mono; [apply (allocate_wp g arena s1 LL size i1 (i5 Le) Ha Hs)| |].
  - intros [p|] s2.
    + intros (LL' & [g1 g2 g3] & Sh). exists LL'. split; [|exact Sh]. constructor; auto.
      * eapply hstep_trans; [exact i2|exact g2|]. right. intros Hi. split; [exact (hinv_init _ _ _ i1)|]. now rewrite (proj1 (i4 Hi)).
      * intros H. apply (hs_clean _ _ _ _ _ _ _ g2). auto.
    + intros ([l1 l2 l3] & E). split; [|split; [exact (hinv_init _ _ _ l1)|]].
      * constructor; [left; exact l1|eapply hstep_trans; [exact i2|exact l2|]; left; auto|exact l3|]. intros H _. apply (hs_clean _ _ _ _ _ _ _ l2). auto.
      * unfold tfull. rewrite <- i7. exact E.
  - intros f [H|[H|(-> & W & N)]]; [left|right; left|right; right; right]; auto. split; [auto|]. split; [auto|]. auto.
Qed.

(** sizes *)
Lemma adjust_spec g n : 0 <= n < 2 ^ 64 -> let m := adjust_size_for_canary g n in 0 <= m < 2 ^ 64 /\ n <= m /\
  m = (if (0 <? n) && (n <=? max_slab_size_class g) then n + canary_size g else n).
Proof.
  intros H. unfold adjust_size_for_canary. pose proof (max_slab_bounds g). pose proof (canary_le g). destruct (_ && _) eqn:E; [|cbn; lia].
  cbv zeta. rewrite w64_small by (change (2 ^ 64) with 18446744073709551616 in *; lia). change (2 ^ 64) with 18446744073709551616 in *. lia.
Qed.
Lemma grant_ge g n : 0 <= n < 2 ^ 64 -> let m := adjust_size_for_canary g n in grant g m <> 0 \/ n <= max_slab_size_class g -> n <= grant g m.
Proof.
  intros H m HH. destruct (adjust_spec g n H) as (A1 & A2 & A3). fold m in A1, A2, A3. clearbody m. unfold grant in *. pose proof (max_slab_bounds g) as MB. pose proof (canary_le g).
  destruct (Z.leb_spec m (max_slab_size_class g)) as [S|L].
  - unfold usable_of. destruct (gsi_class_range g m ltac:(lia)) as (K1 & K2 & K3). destruct (gsi_spec g m ltac:(lia)) as (_ & G2 & _).
    destruct (Z.eqb_spec (si_class (get_size_info m)) 0) as [E|E].
    + apply K3 in E. rewrite E in *. destruct ((0 <? n) && (n <=? max_slab_size_class g)) eqn:Q; lia.
    + rewrite (class_size_slot g _ K1 E) in K2. destruct ((0 <? n) && (n <=? max_slab_size_class g)) eqn:Q; [lia|]. assert (n = 0 \/ max_slab_size_class g < n) as [->|] by lia; [|lia].
      cbn in A3. rewrite A3 in E. elim E. apply (gsi_class_range g 0); lia.
  - destruct (large_any g m A1) as (L1 & L2 & L3). destruct HH as [N|N]; [specialize (L2 N); lia|].
    destruct (large_class_all g m ltac:(lia)) as (Z1 & _ & _ & Z4). assert (get_large_size_class g m <> 0) as N0; [|specialize (L2 N0); lia].
    rewrite Z1. change (2 ^ 61) with 2305843009213693952. change (2 ^ 64) with 18446744073709551616. destruct (LARGE_SIZE_CLASSES g); destruct ((0 <? n) && (n <=? max_slab_size_class g)); lia.
Qed.

(** ** malloc and calloc *)
Lemma shape_align g s' LL LL' size p : hinv g s' LL' -> 0 <= size -> shape g s' LL LL' size p -> p mod 16 = 0.
Proof.
  intros HI H0 [(S & -> & (a & i & j & SB) & _)|(_ & Pm & _)].
  - change 16 with (2 ^ 4). eapply sblk_align; [apply HI|exact SB|lia|]. apply (class_facts_all g _ (proj2 (proj1 SB))).
  - apply Z.mod_divide; [lia|]. apply Z.mod_divide in Pm; [|lia]. eapply Z.divide_trans; [|exact Pm]. exists 256. reflexivity.
Qed.
Lemma shape_nz g s' LL LL' size p n : hinv g s' LL' -> block g s' LL' p n -> shape g s' LL LL' size p -> 0 <= size -> max_slab_size_class g < size -> grant g size <> 0.
Proof.
  intros HI B [(S & _)|(L & Pm & gd & -> & _)] H0 H1; [lia|]. unfold grant. replace (size <=? _) with false by lia. intros E.
  assert (In (mkRegion p (get_large_size_class g size) gd) (rl_own (push (mkRegion p (get_large_size_class g size) gd) LL))) as Hin by (left; reflexivity).
  destruct (gi_reg _ _ _ _ (hi_inv _ _ _ HI) _ Hin) as [_ _ H _ _ _ _]. cbn in H. lia.
Qed.
Lemma alloc_ge g s LL s' LL' p n : 0 <= n < 2 ^ 64 -> ares g s LL s' LL' p (grant g (adjust_size_for_canary g n)) -> shape g s' LL LL' (adjust_size_for_canary g n) p ->
  n <= grant g (adjust_size_for_canary g n).
Proof.
  intros Hn A Sh. destruct (adjust_spec g n Hn) as (A1 & A2 & A3). apply grant_ge; [auto|].
  destruct (Z_le_dec n (max_slab_size_class g)); [auto|left]. eapply shape_nz; eauto; [apply A|eapply hs_blk; [apply A|right; reflexivity]|lia|lia].
Qed.
(** a block at [p] outside the slab region is larger than every size class: fails only for
    blocks made by aligned allocation with an alignment above the page size *)
Definition big (g : config) (LL : regs) (p : Z) : Prop := forall sz gd, In (mkRegion p sz gd) (rl_own LL) -> max_slab_size_class g < sz.
Lemma shape_big g s' LL LL' size p m : hinv g s' LL' -> 0 <= size < 2 ^ 64 -> block g s' LL' p m -> shape g s' LL LL' size p -> big g LL' p.
Proof.
  intros HI Hs B Sh sz gd Hin. pose proof (max_slab_bounds g) as MB. pose proof Sh as [(S & -> & (a & i & j & SB) & _)|(L & Pm & gd' & -> & _)].
  - exfalso. destruct (sblk_loc g s' LL [] (hi_inv _ _ _ HI) _ _ _ _ _ SB) as [E _]. destruct (region_p g s' LL [] (hi_inv _ _ _ HI) _ Hin) as (P & _). cbn in P.
    rewrite (region_not_slab g s' LL [] (hi_inv _ _ _ HI) _ Hin) in E; [discriminate|cbn; lia].
  - assert (sz = get_large_size_class g size) as ->. { eapply (block_fun g s' _ [] (hi_inv _ _ _ HI)); [right; exists gd; exact Hin|right; exists gd'; left; reflexivity]. }
    pose proof (gi_reg _ _ _ _ (hi_inv _ _ _ HI) _ Hin) as [_ _ K _ _ _ _]. cbn in K. destruct (large_any g size Hs) as (L1 & L2 & L3). specialize (L2 ltac:(lia)). lia.
Qed.
Lemma malloc_wp g tid s LL n : ready g s LL -> ra_leftover (st_ra s) = false -> 0 <= n < 2 ^ 64 ->
  wp (run (h_malloc g tid n)) s (fun r s' =>
     match r with
     | None => anone g s LL s' /\ (errno (st_os s') = ENOMEM \/ tfull g s /\ max_slab_size_class g < n + canary_size g)
     | Some p => exists LL' m, ares g s LL s' LL' p m /\ n <= m /\ p mod 16 = 0 /\ m = grant g (adjust_size_for_canary g n) /\ big g LL' p
     end) (api_fault g s).
Proof.
  intros R Le Hn. unfold h_malloc. destruct (adjust_spec g n Hn) as (A1 & A2 & A3). eapply wp_mono; [apply (alloc_wp g tid s LL _ R Le A1)| |auto].
  intros [p|] s'.
  - intros (LL' & A & Sh). exists LL', (grant g (adjust_size_for_canary g n)). split; [exact A|]. split; [eapply alloc_ge; eauto|]. split; [eapply shape_align; [apply A| |exact Sh]; lia|]. split; [reflexivity|].
    eapply shape_big; [apply A|exact A1|apply A; right; reflexivity|exact Sh].
  - intros (A & _ & [E|[E L]]); split; auto. right. split; [auto|]. pose proof (canary_le g). destruct ((0 <? n) && (n <=? max_slab_size_class g)) in A3; lia.
Qed.
Lemma rw_all f o p n : 0 < n -> (forall x, p <= x < p + n -> f (pages o (page_of x)) = true) -> pages_all f o p n = true.
Proof.
  intros N H. apply pages_all_spec. intros q Hq. apply in_pages_spec in Hq. unfold page_of in Hq.
  destruct (Z_le_dec p (q * 4096)).
  - assert (page_of (q * 4096) = q) as E by (unfold page_of; apply Z.div_mul; lia). rewrite <- E. apply H. split; [lia|].
    pose proof (Z.div_mod (p + n + 4095) 4096 ltac:(lia)). pose proof (Z.mod_pos_bound (p + n + 4095) 4096 ltac:(lia)). lia.
  - assert (p / 4096 = q) as E. { destruct Hq as [Q1 _]. apply Z.le_antisymm; [auto|]. apply Z.div_le_lower_bound; lia. }
    fold (page_of p) in E. rewrite <- E. apply H. lia.
Qed.
Lemma poke_set p v n o : (forall x, p <= x < p + n -> pages o (page_of x) = Some PRW) -> poke (fun x => p <= x < p + n) o (set_range p v n o).
Proof.
  intros H. constructor; [reflexivity| | |split; [reflexivity|apply le_n]].
  - intros x Hx. unfold set_range in Hx. cbn in Hx. destruct (_ && _) eqn:E; [apply H; lia|congruence].
  - intros x Hx. unfold set_range. cbn. destruct (_ && _) eqn:E; [elim Hx; lia|auto].
Qed.
Lemma poke_copy p q n o : (forall x, p <= x < p + n -> pages o (page_of x) = Some PRW) -> poke (fun x => p <= x < p + n) o (copied_os p q n o).
Proof.
  intros H. constructor; [reflexivity| | |split; [reflexivity|apply le_n]].
  - intros x Hx. unfold copied_os in Hx. cbn in Hx. destruct (_ && _) eqn:E; [apply H; lia|congruence].
  - intros x Hx. unfold copied_os. cbn. destruct (_ && _) eqn:E; [elim Hx; lia|auto].
Qed.
Lemma poke_mono (D D' : Z -> Prop) o o' : (forall x, D x -> D' x) -> poke D o o' -> poke D' o o'.
Proof. intros H [A B C D0]. constructor; auto. Qed.
Lemma ares_poke g s LL s1 LL1 p n o' : ares g s LL s1 LL1 p n -> poke (fun x => p <= x < p + n) (st_os s1) o' ->
  (ZERO_ON_FREE g = true -> steady g s -> forall x, p <= x < p + n -> mem o' x = 0) -> ares g s LL (set_st_os o' s1) LL1 p n.
Proof.
  intros [A B C D] P Z0. constructor; auto.
  - eapply hinv_poke; eauto.
  - eapply hstep_poke; eauto.
  - intros H. eapply clean_poke; [apply A| |apply D, H]. intros x Hx. exists p, n. split; [apply B; right; reflexivity|]. destruct P as [P1 P2 P3 P4]. destruct (Z_le_dec p x), (Z_lt_dec x (p + n)); auto; elim Hx; apply P3; lia.
Qed.
Lemma anone_errno g s LL s' e : anone g s LL s' -> anone g s LL (set_st_os (set_errno e (st_os s')) s').
Proof.
  intros [A B C D]. constructor; auto.
  - destruct A as [A|A]; [left|right].
    + apply (hinv_poke g s' LL (fun _ => False)); [exact A|]. constructor; auto; [intros x H; elim H; reflexivity|split; [reflexivity|apply le_n]].
    + destruct A. constructor; auto.
  - eapply hstep_ext; [exact B|reflexivity|reflexivity|split; [reflexivity|apply le_n]].
  - intros H. specialize (D H). intros Hi. specialize (D Hi). destruct D as [D1 D2]. constructor; auto.
Qed.
Lemma anone_refl g s LL : ready g s LL -> ra_leftover (st_ra s) = false -> anone g s LL s.
Proof. intros R L. constructor; auto. apply hstep_refl. Qed.

Lemma calloc_wp g tid s LL m n : ready g s LL -> ra_leftover (st_ra s) = false -> 0 <= m < 2 ^ 64 -> 0 <= n < 2 ^ 64 ->
  wp (run (h_calloc g tid m n)) s (fun r s' =>
     match r with
     | None => anone g s LL s' /\ (errno (st_os s') = ENOMEM \/ m * n < 2 ^ 64 /\ tfull g s /\ max_slab_size_class g < m * n + canary_size g)
     | Some p => m * n < 2 ^ 64 /\ exists LL' u, ares g s LL s' LL' p u /\ m * n <= u /\ p mod 16 = 0 /\ u = grant g (adjust_size_for_canary g (m * n)) /\ big g LL' p /\
          ((ZERO_ON_FREE g = true -> steady g s) -> forall x, p <= x < p + m * n -> mem (st_os s') x = 0)
     end) (api_fault g s).
Proof.
  intros R Le Hm Hn. unfold h_calloc. destruct (Z.leb_spec (2 ^ 64) (m * n)) as [O|O].
  { unfold set_errno_to. apply wp_run_pbind, wp_run_act, wp_zoom, wp_modify, wp_run_ret. split; [|left; reflexivity]. apply anone_errno. apply anone_refl; auto. }
  assert (0 <= m * n < 2 ^ 64) as Ht by nia. set (t := m * n) in *. destruct (adjust_spec g t Ht) as (A1 & A2 & A3). set (u := adjust_size_for_canary g t) in *.
  apply wp_run_pbind. eapply wp_mono; [apply (alloc_wp g tid s LL u R Le A1)| |auto]. intros [p|] s1.
  2:{ intros (A & _ & E). apply wp_run_ret. split; [exact A|]. destruct E as [E|[E L]]; [auto|right]. split; [lia|]. split; [auto|]. pose proof (canary_le g). destruct ((0 <? t) && (t <=? max_slab_size_class g)) in A3; lia. }
  intros (LL' & A & Sh). pose proof (alloc_ge g s LL s1 LL' p t Ht A Sh) as GE. fold u in GE.
  assert (p mod 16 = 0) as Pm by (eapply shape_align; [apply A| |exact Sh]; lia).
  assert (block g s1 LL' p (grant g u)) as BN by (apply A; right; reflexivity).
  assert (big g LL' p) as BG by (eapply shape_big; [apply A|exact A1|exact BN|exact Sh]).
  destruct (negb (ZERO_ON_FREE g) && negb (u =? 0) && (u <=? max_slab_size_class g)) eqn:Q.
  - assert (u - canary_size g = t) as Eu. { destruct ((0 <? t) && (t <=? max_slab_size_class g)) eqn:Q2; [lia|]. assert (t = 0 \/ max_slab_size_class g < t) by lia. pose proof (canary_le g). lia. }
    rewrite Eu. apply wp_run_pbind, wp_run_act. unfold on_os. apply wp_zoom.
    assert (forall x, p <= x < p + t -> pages (st_os s1) (page_of x) = Some PRW) as RW.
    { intros x Hx. eapply (block_rw g s1 LL' [] (hi_inv _ _ _ (ar_inv _ _ _ _ _ _ _ A))); [exact BN|lia]. }
    apply mem_set_wp; [intros Hp; apply rw_all; [auto|]; intros x Hx; rewrite RW by auto; reflexivity|]. apply wp_run_ret.
    split; [lia|]. exists LL', (grant g u). split; [|split; [exact GE|split; [exact Pm|split; [reflexivity|split; [exact BG|]]]]].
    + apply ares_poke; [exact A| |].
      * eapply poke_mono; [|apply poke_set; exact RW]. cbn. intros x Hx. lia.
      * intros ZF. rewrite ZF in Q. discriminate.
    + intros _ x Hx. cbn [set_st_os st_os]. unfold set_range. cbn. replace (_ && _) with true by lia. reflexivity.
  - apply wp_run_pbind, wp_run_ret, wp_run_ret. split; [lia|]. exists LL', (grant g u). split; [exact A|]. split; [exact GE|]. split; [exact Pm|]. split; [reflexivity|]. split; [exact BG|].
    intros Z0 x Hx. destruct (ZERO_ON_FREE g) eqn:ZF; [apply (ar_zero _ _ _ _ _ _ _ A ZF (Z0 eq_refl)); lia|].
    destruct Sh as [(S & _)|(L & _ & gd & _ & _ & Zr)]; [|apply Zr; unfold grant in GE; replace (u <=? _) with false in GE by lia; lia].
    cbn in Q. assert (u = 0) by lia. assert (t = 0) by (destruct ((0 <? t) && (t <=? max_slab_size_class g)); lia). lia.
Qed.

(** aligned allocation *)
Definition pow2 (a : Z) : Prop := exists k, 0 <= k < 64 /\ a = 2 ^ k.
Lemma pow2_check al : 0 <= al < 2 ^ 64 -> 1 <= al -> (Z.land (w64 (al - 1)) al = 0 <-> pow2 al).
Proof.
  intros H H1. rewrite Z.land_comm. change (w64 (al - 1)) with (wW 64 (al - 1)). rewrite (pow2_test al 64 ltac:(lia)). split.
  - intros E. exists (Z.log2 al). split; [|exact E]. split; [apply Z.log2_nonneg|]. apply Z.log2_lt_pow2; lia.
  - intros (k & Hk & ->). rewrite Z.log2_pow2 by lia. reflexivity.
Qed.
Lemma got_ares g s LL s1 s2 LL' p n : inited g s s1 LL -> got g s1 LL s2 LL' p n -> ares g s LL s2 LL' p n.
Proof.
  intros [i1 i2 i3 i4 i5 i7 i6] [g1 g2 g3].
  assert (steady g s -> clean g s1) as CL. { intros H. destruct (is_init s) eqn:E; [apply (hs_clean _ _ _ _ _ _ _ i2); auto|auto]. }
  constructor; auto.
  - eapply hstep_trans; [exact i2|exact g2|]. right. intros Hi. split; [exact (hinv_init _ _ _ i1)|]. now rewrite (proj1 (i4 Hi)).
  - intros H. apply (hs_clean _ _ _ _ _ _ _ g2). auto.
Qed.
Lemma lost_anone g s LL s1 s2 : inited g s s1 LL -> lost g s1 LL s2 -> anone g s LL s2.
Proof.
  intros [i1 i2 i3 i4 i5 i7 i6] [l1 l2 l3].
  assert (steady g s -> clean g s1) as CL. { intros H. destruct (is_init s) eqn:E; [apply (hs_clean _ _ _ _ _ _ _ i2); auto|auto]. }
  constructor; [left; exact l1|eapply hstep_trans; [exact i2|exact l2|]; left; auto|exact l3|]. intros H _. apply (hs_clean _ _ _ _ _ _ _ l2). auto.
Qed.
Lemma inited_anone g s LL s1 : inited g s s1 LL -> ra_leftover (st_ra s) = false -> anone g s LL s1.
Proof.
  intros [i1 i2 i3 i4 i5 i7 i6] L. constructor; [left; exact i1|exact i2|apply i5, L|]. intros H _. destruct (is_init s) eqn:E; [apply (hs_clean _ _ _ _ _ _ _ i2); auto|auto].
Qed.
Lemma alloc_fault_api g s LL s1 f : inited g s s1 LL -> alloc_fault g s1 f -> api_fault g s f.
Proof.
  intros [i1 i2 i3 i4 i5 i7 i6] [H|[H|(-> & W & N)]]; [left|right; left|right; right; right]; auto. split; [auto|]. split; [auto|]. intros H. apply N.
  destruct (is_init s) eqn:E; [apply (hs_clean _ _ _ _ _ _ _ i2); auto|auto].
Qed.
Lemma mod_pow2_le p j k : 0 <= j <= k -> p mod 2 ^ k = 0 -> p mod 2 ^ j = 0.
Proof.
  intros H P. assert (0 < 2 ^ j) by (apply pow2_pos; lia). assert (0 < 2 ^ k) by (apply pow2_pos; lia). apply Z.mod_divide; [lia|]. apply Z.mod_divide in P; [|lia].
  eapply Z.divide_trans; [|exact P]. exists (2 ^ (k - j)). rewrite <- Z.pow_add_r by lia. f_equal. lia.
Qed.
(** slot alignment when the size has been rounded to an aligned class *)
Lemma shape_align_k g s' LL LL' size p k : hinv g s' LL' -> 0 <= size -> 0 <= k <= 12 -> shape g s' LL LL' size p ->
  (size <= max_slab_size_class g -> slot_size g (si_class (get_size_info size)) mod 2 ^ k = 0) -> p mod 2 ^ k = 0.
Proof.
  intros HI H0 Hk [(S & -> & (a & i & j & SB) & _)|(_ & Pm & _)] HS.
  - eapply sblk_align; [apply HI|exact SB|lia|auto].
  - apply (mod_pow2_le p k 12); auto.
Qed.
Lemma aligned_wp g tid s LL al n mn : ready g s LL -> ra_leftover (st_ra s) = false -> 0 <= n < 2 ^ 64 -> 0 <= al < 2 ^ 64 -> 1 <= mn ->
  wp (run (alloc_aligned g tid al n mn)) s (fun r s' =>
     match r with
     | inl e => anone g s LL s' /\ (e = EINVAL /\ ~ (pow2 al /\ mn <= al) \/ e = ENOMEM /\ pow2 al /\ mn <= al)
     | inr p => pow2 al /\ mn <= al /\ exists LL' u, ares g s LL s' LL' p u /\ n <= u /\ p mod al = 0 /\ p mod 16 = 0 /\ (4096 < al /\ n + canary_size g <= max_slab_size_class g \/ big g LL' p)
     end) (api_fault g s).
Proof.
  intros R Le Hn Ha Hmn. unfold alloc_aligned. destruct (adjust_spec g n Hn) as (A1 & A2 & A3). set (u := adjust_size_for_canary g n) in *.
  apply wp_run_pbind. eapply wp_mono; [apply (init_call_wp g tid s LL R)| |intros f [H1 H2]; right; right; left; auto]. intros arena s1 (Har & IN). pose proof IN as [i1 i2 i3 i4 i5 i7 i6].
  unfold allocate_aligned. destruct (negb (Z.land (w64 (al - 1)) al =? 0) || (al <? mn)) eqn:Ck.
  { apply wp_run_ret. split; [apply (inited_anone _ _ _ _ IN Le)|]. left. split; [auto|]. intros (P & Q). apply pow2_check in P; lia. }
  assert (pow2 al) as P2 by (apply pow2_check; lia). assert (mn <= al) as Mn by lia. pose proof P2 as (k & Hk & Ek). pose proof (max_slab_bounds g) as MB. pose proof (canary_le g) as CB.
  destruct (Z.leb_spec al PAGE_SIZE) as [Pg|Pg].
  - assert (k <= 12) as Hk12. { apply (Z.pow_le_mono_r_iff 2); [lia|lia|]. rewrite <- Ek. exact Pg. }
    apply wp_run_pbind.
    assert (forall v, 0 <= v < 2 ^ 64 -> (grant g v <> 0 \/ n <= max_slab_size_class g -> n <= grant g v) -> (max_slab_size_class g < n -> max_slab_size_class g < v) ->
       (v <= max_slab_size_class g -> slot_size g (si_class (get_size_info v)) mod 2 ^ k = 0) ->
       wp (run (do! p := allocate g arena v in match p with None => Ret (inl ENOMEM) | Some p => Ret (inr p) end)) s1 (fun r s' =>
     match r with
     | inl e => anone g s LL s' /\ (e = EINVAL /\ ~ (pow2 al /\ mn <= al) \/ e = ENOMEM /\ pow2 al /\ mn <= al)
     | inr p => pow2 al /\ mn <= al /\ exists LL' u, ares g s LL s' LL' p u /\ n <= u /\ p mod al = 0 /\ p mod 16 = 0 /\ (4096 < al /\ n + canary_size g <= max_slab_size_class g \/ big g LL' p)
     end) (api_fault g s)) as W.
    { intros v Hv Ge Lg Al. apply wp_run_pbind. eapply wp_mono; [apply (allocate_wp g arena s1 LL v i1 (i5 Le) Har Hv)| |intros f H; eapply alloc_fault_api; eauto]. intros [p|] s2.
      - intros (LL' & G & Sh). apply wp_run_ret. split; [auto|]. split; [auto|]. exists LL', (grant g v). pose proof (got_ares _ _ _ _ _ _ _ _ IN G) as AR.
        split; [exact AR|]. split; [|split; [|split]].
        + apply Ge. destruct (Z_le_dec v (max_slab_size_class g)) as [S|L].
          * right. destruct (Z_le_dec n (max_slab_size_class g)); auto. exfalso. specialize (Lg ltac:(lia)). lia.
          * left. eapply (shape_nz g s2 LL LL' v p); [apply G|apply AR; right; reflexivity|exact Sh|lia|lia].
        + rewrite Ek. eapply shape_align_k; [apply G| |lia|exact Sh|exact Al]. lia.
        + eapply shape_align; [apply G| |exact Sh]. lia.
        + right. eapply shape_big; [apply G|exact Hv|apply G; right; reflexivity|exact Sh].
      - intros (L & _). apply wp_run_ret. split; [eapply lost_anone; eauto|]. right. auto. }
    destruct ((u <=? max_slab_size_class g) && (min_align <? al)) eqn:Q.
    + destruct (gsia_spec g u k ltac:(lia) ltac:(lia)) as (info & E1 & E2 & E3 & E4 & E5 & E6 & _). rewrite Ek, E1. apply wp_run_ret.
      pose proof (gsi_fix g _ _ E2) as F. assert (0 <= si_class info < N_SIZE_CLASSES g) as KR. { destruct (gsi_class_range g (si_size info) ltac:(lia)) as (K & _). rewrite F in K. exact K. }
      pose proof (class_size_some g (si_class info) KR) as CS. assert (slot_size g (si_class info) = si_size info) as SS.
      { rewrite <- class_size_slot by lia. rewrite CS in E2. congruence. }
      rewrite <- Ek. apply W; [lia| |lia|].
      * intros _. unfold grant. replace (si_size info <=? max_slab_size_class g) with true by lia. rewrite F. cbn [si_class]. unfold usable_of. replace (si_class info =? 0) with false by lia. rewrite SS.
        destruct ((0 <? n) && (n <=? max_slab_size_class g)) eqn:Q2; [lia|]. assert (n = 0) as -> by lia. pose proof (class_facts_all g _ KR) as CF. destruct CF. rewrite SS in *. lia.
      * intros _. rewrite F. cbn [si_class]. rewrite SS. exact E5.
    + apply wp_run_ret. apply W; [lia| | |].
      * intros GE. apply grant_ge; [exact Hn|]. exact GE.
      * intros L. destruct ((0 <? n) && (n <=? max_slab_size_class g)) eqn:Q2; lia.
      * intros S. assert (al <= 16) as A16 by (unfold min_align in Q; lia). assert (k <= 4) as K4. { apply (Z.pow_le_mono_r_iff 2); [lia|lia|]. rewrite <- Ek. exact A16. }
        apply (mod_pow2_le _ k 4); [lia|]. destruct (gsi_class_range g u ltac:(lia)) as (K & _). apply (class_facts_all g _ K).
  - assert (12 < k) as Hk12. { apply (Z.pow_lt_mono_r_iff 2); [lia|lia|]. rewrite <- Ek. exact Pg. }
    pose proof i1 as [I O S Arn C]. apply wp_pra. rewrite Ek. eapply wp_mono; [apply (allocate_large_aligned_wp g s1 (ra_get s1) LL [] k u); auto; [rewrite ra_put_get; exact I|lia]| |intros f H; eapply alloc_fault_api; [exact IN|]; destruct H; [left|right; left]; auto].
    intros [e|p] rs' (OC & H).
    + destruct H as (-> & I' & Le'). split; [|right; rewrite <- Ek; auto]. eapply lost_anone; [exact IN|]. constructor; auto.
      * constructor; auto.
      * apply (large_hstep g s1 (ra_put rs' s1) LL LL None None [] I); auto; try discriminate.
        -- eapply os_chg_mono; [|exact OC]. intros q. rewrite kept_user. auto.
        -- intros q n0 gd. split; [intros H; left; split; [auto|discriminate]|intros [[H _]|[=]]; auto].
        -- intros O0. split; [auto|discriminate].
    + destruct H as (N0 & Pm & LS). rewrite <- Ek. split; [auto|]. split; [auto|]. destruct (large_any g u A1) as (L1 & L2 & L3).
      destruct (large_got g s1 rs' LL p (get_large_size_class g u) i1 (i5 Le)) as (gd & G & Gd & Z0); auto; [split; [lia|auto]|].
      exists (push (mkRegion p (get_large_size_class g u) gd) LL), (get_large_size_class g u). split; [eapply got_ares; eauto|]. split; [specialize (L2 N0); lia|]. split; [rewrite Ek; exact Pm|].
      split; [apply (mod_pow2_le p 4 k); [lia|exact Pm]|].
      destruct (Z_le_gt_dec (n + canary_size g) (max_slab_size_class g)) as [Sm|Lg]; [left; split; [exact Pg|exact Sm]|]. right.
      assert (max_slab_size_class g < u) as Lu by (destruct ((0 <? n) && (n <=? max_slab_size_class g)) eqn:Q2; lia).
      intros sz gd0 Hin. assert (sz = get_large_size_class g u) as ->. { eapply (block_fun g _ _ [] (hi_inv _ _ _ (go_inv _ _ _ _ _ _ _ G))); [right; exists gd0; exact Hin|apply G; right; reflexivity]. }
      specialize (L2 N0). lia.
Qed.
