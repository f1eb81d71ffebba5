(** Blocks: addresses, extents, uniqueness. *)
From Coq Require Import String ZArith List Bool Lia ZifyBool Permutation.
From Verif Require Import M_Base M_Config M_SizeClass M_Libdivide M_OS M_Random M_Slab M_Region M_Api
  P_Base P_Count P_SizeClass P_Libdivide P_Random P_Bitmap P_Bitmap2 P_OS P_Links P_Slab1 P_Slab2 P_Slab3 P_Slab4 P_Slab5 P_Slab6 P_Slab7 P_Slab8 P_Slab9 P_Slab10 P_Slab11
  P_Region P_Region2 P_Heap1 P_Heap2 P_Heap3 P_Heap4 P_Heap5.
Import ListNotations.
Open Scope Z_scope.
Ltac Zify.zify_post_hook ::= idtac.

(** ** addresses of the slab region *)
Section Addr.
Context (g : config) (s : state) (U : usable_config g = true) (PL : placed g s).
Lemma real_facts : 2097152 <= REAL_CLASS_REGION_SIZE g <= 2199023255552 /\ ARENA_SIZE g = REAL_CLASS_REGION_SIZE g * N_SIZE_CLASSES g /\ slab_region_size g = ARENA_SIZE g * N_ARENA g.
Proof. pose proof (gfacts_of g U) as []. unfold REAL_CLASS_REGION_SIZE, slab_region_size, ARENA_SIZE. split; [lia|]. split; [reflexivity|reflexivity]. Qed.
Lemma class_of_addr a k x : class_in g a k -> class_lo g s a k <= x < class_lo g s a k + REAL_CLASS_REGION_SIZE g ->
  in_slab_region x s = true /\ slab_size_class g s x = (a, k).
Proof.
  intros C Hx. pose proof (class_lo_in g s a k U C) as [L1 L2]. destruct real_facts as (R1 & R2 & R3). destruct PL. pose proof (gfacts_of g U) as [].
  split; [unfold in_slab_region; lia|]. destruct C as [Ca Ck]. unfold class_lo in *.
  set (R := REAL_CLASS_REGION_SIZE g) in *. set (N := N_SIZE_CLASSES g) in *. set (A := ARENA_SIZE g) in *. change (2 ^ 47) with 140737488355328 in *.
  set (r := x - (st_start s + A * a + R * k)). assert (0 <= r < R) by (unfold r; lia).
  assert (0 <= R * k + r < A) as B by (rewrite R2; nia).
  unfold slab_size_class. fold A R. rewrite (w64_small (x - st_start s)) by (change (2 ^ 64) with 18446744073709551616; lia).
  replace (x - st_start s) with (A * a + (R * k + r)) by (unfold r; lia).
  assert ((A * a + (R * k + r)) / A = a) as D1. { symmetry. apply Z.div_unique with (R * k + r); lia. }
  assert ((R * k + r) / R = k) as D2. { symmetry. apply Z.div_unique with r; lia. }
  rewrite D1. destruct (Z.ltb_spec 1 (N_ARENA g)).
  - unfold w32. rewrite (Z.mod_small a) by lia. rewrite w64_small by (change (2 ^ 64) with 18446744073709551616; lia).
    replace (A * a + (R * k + r) - a * A) with (R * k + r) by lia. rewrite D2. reflexivity.
  - assert (a = 0) as -> by lia. rewrite w64_small by (change (2 ^ 64) with 18446744073709551616; lia).
    replace (A * 0 + (R * k + r) - 0 * A) with (R * k + r) by lia. rewrite D2. reflexivity.
Qed.
Lemma addr_class x : in_slab_region x s = true ->
  exists a k, slab_size_class g s x = (a, k) /\ class_in g a k /\ class_lo g s a k <= x < class_lo g s a k + REAL_CLASS_REGION_SIZE g.
Proof.
  unfold in_slab_region. intros H. destruct real_facts as (R1 & R2 & R3). pose proof PL as []. pose proof (gfacts_of g U) as [].
  set (R := REAL_CLASS_REGION_SIZE g) in *. set (N := N_SIZE_CLASSES g) in *. set (A := ARENA_SIZE g) in *.
  set (y := x - st_start s). assert (0 <= y < A * N_ARENA g) as By by (unfold y; lia). assert (0 < A) by (rewrite R2; nia).
  set (a := y / A). set (k := (y - A * a) / R).
  pose proof (Z.div_mod y A ltac:(lia)) as Ey. pose proof (Z.mod_pos_bound y A ltac:(lia)) as Eb. fold a in Ey.
  assert (0 <= a < N_ARENA g) as Ha. { unfold a. split; [apply Z.div_pos; lia|apply Z.div_lt_upper_bound; lia]. }
  pose proof (Z.div_mod (y - A * a) R ltac:(lia)) as Ez. pose proof (Z.mod_pos_bound (y - A * a) R ltac:(lia)) as Ec. fold k in Ez.
  assert (0 <= k < N) as Hk. { unfold k. split; [apply Z.div_pos; lia|apply Z.div_lt_upper_bound; lia]. }
  assert (class_in g a k) as C by (split; auto).
  assert (class_lo g s a k <= x < class_lo g s a k + REAL_CLASS_REGION_SIZE g) as B.
  { unfold class_lo. fold A R. unfold y in *. lia. }
  exists a, k. split; [|auto]. apply class_of_addr; auto.
Qed.
End Addr.

(** ** blocks *)
Definition usable_of (g : config) (k : Z) : Z := if k =? 0 then 0 else slot_size g k - canary_size g.
Definition sblk (g : config) (s : state) (a k i j p : Z) : Prop :=
  class_in g a k /\ 0 <= j < get_slots g k /\ granted (st_cls s a k) i j = true /\ p = sptr g k (st_cls s a k) i j.
Definition block (g : config) (s : state) (LL : regs) (p n : Z) : Prop :=
  (exists a k i j, sblk g s a k i j p /\ n = usable_of g k) \/ (exists gd, In (mkRegion p n gd) (rl_own LL)).

Lemma canary_le g : 0 <= canary_size g <= 8. Proof. unfold canary_size. destruct (SLAB_CANARY g); lia. Qed.
Lemma usable_bounds g k : 0 <= k < N_SIZE_CLASSES g -> 0 <= usable_of g k <= slot_size g k /\ (k <> 0 -> 8 <= usable_of g k).
Proof. intros H. pose proof (class_facts_all g k H) as []. pose proof (canary_le g). unfold usable_of. destruct (Z.eqb_spec k 0); lia. Qed.

Section B.
Context (g : config) (s : state) (LL : regs) (X : list fl) (I : ginv g s LL X).
Lemma gclass a k : class_in g a k -> exists E F, cinvL g k (st_os s) (st_cls s a k) E F.
Proof. intros C. destruct (gi_cls _ _ _ _ I a k C) as [(E & F & H) _]. eauto. Qed.
Lemma ggeom a k : class_in g a k -> geom g k (st_cls s a k). Proof. apply (ginv_geom _ _ _ _ _ _ I). Qed.
Lemma granted_used c i j : granted c i j = true -> used c i j = true. Proof. unfold granted. intros H. apply andb_prop in H. apply H. Qed.
Lemma slot_info a k i j : class_in g a k -> 0 <= j < get_slots g k -> used (st_cls s a k) i j = true ->
  is_slab g (st_cls s a k) i /\ 0 < cntof (st_cls s a k) i /\
  c_start (st_cls s a k) <= sptr g k (st_cls s a k) i j /\ sptr g k (st_cls s a k) i j + slot_size g k <= c_start (st_cls s a k) + CLASS_REGION_SIZE g.
Proof.
  intros C Hj Hu. destruct (gclass a k C) as (E & F & P & Iv & _). pose proof (ggeom a k C) as G.
  pose proof (class_facts_all g k (proj2 C)) as []. destruct (quar_slot g k _ _ _ _ _ _ _ i j Iv ltac:(lia) Hu) as (_ & Hc & Hs).
  split; [auto|]. split; [auto|]. destruct (slab_range g k _ _ _ _ _ _ _ i Iv Hs). pose proof (slot_in_slab g k _ G i j Hj). pose proof (slab_in_region g k _ G i ltac:(lia)). lia.
Qed.
Lemma class_region_lo a k x : class_in g a k -> c_start (st_cls s a k) <= x < c_start (st_cls s a k) + CLASS_REGION_SIZE g ->
  class_lo g s a k <= x < class_lo g s a k + REAL_CLASS_REGION_SIZE g.
Proof. intros C H. destruct (gi_cls _ _ _ _ I a k C) as [_ []]. lia. Qed.
Lemma sblk_extent a k i j p : sblk g s a k i j p -> forall x, p <= x < p + slot_size g k ->
  in_slab_region x s = true /\ slab_size_class g s x = (a, k) /\ slab_span g s (page_of x) = true.
Proof.
  intros (C & Hj & Hg & ->) x Hx. destruct (slot_info a k i j C Hj (granted_used _ _ _ Hg)) as (_ & _ & B1 & B2).
  pose proof (class_region_lo a k x C ltac:(lia)) as B. destruct (class_of_addr g s (gi_u _ _ _ _ I) (gi_pl _ _ _ _ I) a k x C B).
  split; [auto|]. split; [auto|]. eapply class_in_slab; [apply I|exact C|apply (gi_cls _ _ _ _ I a k C)|].
  apply (in_class_addr g k _ (ggeom a k C)). lia.
Qed.
Lemma sblk_loc a k i j p : sblk g s a k i j p -> in_slab_region p s = true /\ slab_size_class g s p = (a, k).
Proof.
  intros H. pose proof H as (C & _). pose proof (class_facts_all g k (proj2 C)) as []. destruct (sblk_extent _ _ _ _ _ H p ltac:(lia)) as (A & B & _). auto.
Qed.
Lemma sblk_inj a k i j a' k' i' j' p : sblk g s a k i j p -> sblk g s a' k' i' j' p -> a' = a /\ k' = k /\ i' = i /\ j' = j.
Proof.
  intros H H'. destruct (sblk_loc _ _ _ _ _ H) as [_ E]. destruct (sblk_loc _ _ _ _ _ H') as [_ E']. assert (a' = a /\ k' = k) as [-> ->] by (rewrite E in E'; injection E'; auto).
  split; [auto|]. split; [auto|]. destruct H as (C & Hj & _ & Ep), H' as (_ & Hj' & _ & Ep').
  apply (sptr_inj g k (st_cls s a k) (ggeom a k C)); auto. congruence.
Qed.
Lemma region_extent r : In r (rl_own LL) -> forall x, rg_p r <= x < rg_p r + rg_size r -> region_span r (page_of x) = true /\ pages (st_os s) (page_of x) = Some PRW.
Proof.
  intros Hr x Hx. pose proof (gi_reg _ _ _ _ I r Hr) as K. destruct K.
  assert (in_pages (rg_p r) (rg_size r) (page_of x) = true) as H.
  { apply in_pages_spec. unfold page_of. split; [apply Z.div_le_mono; lia|]. apply Z.lt_le_trans with (x / 4096 + 1); [lia|]. rewrite <- Z.div_add by lia. apply Z.div_le_mono; lia. }
  split; [|auto]. unfold region_span. eapply in_pages_sub; [| |exact H]; lia.
Qed.
Lemma slab_region_span x : in_slab_region x s = true -> slab_span g s (page_of x) = true.
Proof.
  unfold in_slab_region, slab_span. intros H. destruct (gi_pl _ _ _ _ I). apply in_pages_spec. unfold page_of. split; [apply Z.div_le_mono; lia|].
  apply Z.lt_le_trans with (x / 4096 + 1); [lia|]. rewrite <- Z.div_add by lia. apply Z.div_le_mono; lia.
Qed.
Lemma region_not_slab r : In r (rl_own LL) -> forall x, rg_p r <= x < rg_p r + rg_size r -> in_slab_region x s = false.
Proof.
  intros Hr x Hx. destruct (in_slab_region x s) eqn:E; [|auto]. apply slab_region_span in E. destruct (region_extent r Hr x Hx) as [H _].
  assert (In (region_span r) (map region_span (rl_own LL) ++ qspans (st_ra s) ++ map fl_in X)) as Hin by (apply in_or_app; left; apply in_map; auto).
  destruct (fixed_rest _ _ _ _ _ _ I Hin H). congruence.
Qed.
Lemma region_p r : In r (rl_own LL) -> 0 < rg_size r /\ 8192 <= rg_p r /\ rg_p r + rg_size r <= 2 ^ 47.
Proof. intros Hr. destruct (gi_reg _ _ _ _ I r Hr). lia. Qed.
Lemma cover_two l f1 f2 (q : Z) : In f1 l -> In f2 l -> f1 q = true -> f2 q = true -> f1 <> f2 -> 2 <= cover l q.
Proof.
  induction l as [|h l IH]; [intros []|]. intros [->|A] [->|B] F1 F2 NE; cbn.
  - congruence.
  - unfold hit. rewrite F1. pose proof (cover_In l f2 q B F2). lia.
  - unfold hit. rewrite F2. pose proof (cover_In l f1 q A F1). lia.
  - specialize (IH A B F1 F2 NE). pose proof (hit_range h q). lia.
Qed.
Lemma cover_map_two (l : list region) r r' q : In r l -> In r' l -> r <> r' -> region_span r q = true -> region_span r' q = true -> 2 <= cover (map region_span l) q.
Proof.
  induction l as [|h l IH]; [intros []|]. intros [->|A] [->|B] NE F1 F2; cbn.
  - congruence.
  - unfold hit. rewrite F1. pose proof (cover_In (map region_span l) (region_span r') q (in_map _ _ _ B) F2). lia.
  - unfold hit. rewrite F2. pose proof (cover_In (map region_span l) (region_span r) q (in_map _ _ _ A) F1). lia.
  - specialize (IH A B NE F1 F2). pose proof (hit_range (region_span h) q). lia.
Qed.
Lemma region_apart r r' q : In r (rl_own LL) -> In r' (rl_own LL) -> region_span r q = true -> region_span r' q = true -> r = r'.
Proof.
  intros Hr Hr' H H'. assert ({r = r'} + {r <> r'}) as [|NE] by (decide equality; apply Z.eq_dec); [auto|].
  pose proof (cover_map_two _ _ _ q Hr Hr' NE H H') as C. pose proof (gi_apart _ _ _ _ I q) as AP. unfold spans in AP. rewrite !cover_app in AP.
  pose proof (cover_nonneg (fixed g s) q). pose proof (cover_nonneg (qspans (st_ra s)) q). pose proof (cover_nonneg (map fl_in X) q). lia.
Qed.
Lemma region_inj r r' : In r (rl_own LL) -> In r' (rl_own LL) -> rg_p r = rg_p r' -> r = r'.
Proof.
  intros Hr Hr' E. destruct (region_p r Hr) as (S1 & _). destruct (region_p r' Hr') as (S2 & _).
  apply (region_apart r r' (page_of (rg_p r)) Hr Hr'); [apply (region_extent r Hr); lia|apply (region_extent r' Hr'); lia].
Qed.
(** the reserved extents of two slots are disjoint, or the slots are the same *)
Lemma sblk_apart a k i j p a' k' i' j' p' x : sblk g s a k i j p -> sblk g s a' k' i' j' p' ->
  p <= x < p + slot_size g k -> p' <= x < p' + slot_size g k' -> a = a' /\ k = k' /\ i = i' /\ j = j'.
Proof.
  intros H H' Hx Hx'. destruct (sblk_extent _ _ _ _ _ H x Hx) as (_ & E & _). destruct (sblk_extent _ _ _ _ _ H' x Hx') as (_ & E' & _).
  rewrite E in E'. injection E' as <- <-. destruct H as (C & Hj & _ & ->), H' as (_ & Hj' & _ & ->).
  destruct (sptr_apart g k (st_cls s a k) (ggeom a k C) i j i' j' x Hj Hj' Hx Hx') as [-> ->]. auto.
Qed.

Lemma block_fun p n n' : block g s LL p n -> block g s LL p n' -> n = n'.
Proof.
  intros [(a & k & i & j & H & ->)|(gd & H)] [(a' & k' & i' & j' & H' & ->)|(gd' & H')].
  - destruct (sblk_inj _ _ _ _ _ _ _ _ _ H H') as (-> & -> & _). auto.
  - destruct (sblk_loc _ _ _ _ _ H) as [E _]. pose proof (region_p _ H') as (Q & _). cbn in Q. rewrite (region_not_slab _ H' p) in E; [discriminate|cbn; lia].
  - destruct (sblk_loc _ _ _ _ _ H') as [E _]. pose proof (region_p _ H) as (Q & _). cbn in Q. rewrite (region_not_slab _ H p) in E; [discriminate|cbn; lia].
  - pose proof (region_inj _ _ H H' eq_refl) as E. congruence.
Qed.
Lemma block_disjoint p n p' n' x : block g s LL p n -> block g s LL p' n' -> p <= x < p + n -> p' <= x < p' + n' -> p = p'.
Proof.
  intros [(a & k & i & j & H & ->)|(gd & H)] [(a' & k' & i' & j' & H' & ->)|(gd' & H')] Hx Hx'.
  - pose proof (usable_bounds g k (proj2 (proj1 H))). pose proof (usable_bounds g k' (proj2 (proj1 H'))).
    destruct (sblk_apart _ _ _ _ _ _ _ _ _ _ x H H' ltac:(lia) ltac:(lia)) as (-> & -> & -> & ->). destruct H as (_ & _ & _ & ->), H' as (_ & _ & _ & ->). auto.
  - pose proof (usable_bounds g k (proj2 (proj1 H))). destruct (sblk_extent _ _ _ _ _ H x ltac:(lia)) as [E _].
    rewrite (region_not_slab _ H' x) in E; [discriminate|cbn; lia].
  - pose proof (usable_bounds g k' (proj2 (proj1 H'))). destruct (sblk_extent _ _ _ _ _ H' x ltac:(lia)) as [E _].
    rewrite (region_not_slab _ H x) in E; [discriminate|cbn; lia].
  - destruct (region_extent _ H x ltac:(cbn; lia)) as [S1 _]. destruct (region_extent _ H' x ltac:(cbn; lia)) as [S2 _].
    pose proof (region_apart _ _ _ H H' S1 S2) as E. congruence.
Qed.
Lemma block_bounds p n : block g s LL p n -> 0 < p /\ 0 <= n /\ p + n < 2 ^ 48.
Proof.
  intros [(a & k & i & j & H & ->)|(gd & H)].
  - pose proof H as (C & Hj & Hg & Ep). destruct (slot_info a k i j C Hj (granted_used _ _ _ Hg)) as (_ & _ & B1 & B2). rewrite <- Ep in *.
    pose proof (ge_start _ _ _ (ggeom a k C)). pose proof (usable_bounds g k (proj2 C)). change (2 ^ 47) with 140737488355328 in *. change (2 ^ 48) with 281474976710656. lia.
  - pose proof (region_p _ H). cbn in *. change (2 ^ 47) with 140737488355328 in *. change (2 ^ 48) with 281474976710656. lia.
Qed.
Lemma slot_page_rw a k i j x : class_in g a k -> 0 <= j < get_slots g k -> used (st_cls s a k) i j = true -> k <> 0 ->
  sptr g k (st_cls s a k) i j <= x < sptr g k (st_cls s a k) i j + slot_size g k -> pages (st_os s) (page_of x) = Some PRW.
Proof.
  intros C Hj Hu Hk Hx. destruct (gclass a k C) as (E & F & P & Iv & _). pose proof (ggeom a k C) as G.
  destruct (slot_info a k i j C Hj Hu) as (Hs & Hc & _). rewrite (pg_act _ _ _ _ _ (ci_pages _ _ _ _ _ _ _ _ _ Iv) i (page_of x)).
  - replace (k =? 0) with false by lia. reflexivity.
  - left. exact Hc.
  - apply (in_slab_addr g k _ G). pose proof (slot_in_slab g k _ G i j Hj). lia.
Qed.
Lemma block_rw p n x : block g s LL p n -> p <= x < p + n -> pages (st_os s) (page_of x) = Some PRW.
Proof.
  intros [(a & k & i & j & H & ->)|(gd & H)] Hx.
  - pose proof H as (C & Hj & Hg & Ep). pose proof (usable_bounds g k (proj2 C)). assert (k <> 0) as Hk. { intros ->. unfold usable_of in Hx. rewrite Z.eqb_refl in Hx. lia. }
    eapply slot_page_rw; eauto using granted_used. lia.
  - apply (region_extent _ H). cbn. lia.
Qed.
Lemma block_user p n x : block g s LL p n -> p <= x < p + n -> user g s LL (page_of x).
Proof.
  intros [(a & k & i & j & H & ->)|(gd & H)] Hx.
  - left. pose proof (usable_bounds g k (proj2 (proj1 H))). apply (sblk_extent _ _ _ _ _ H x). lia.
  - right. exists (mkRegion p n gd). split; [auto|]. apply (region_extent _ H). cbn. lia.
Qed.
End B.
