(** Single calls: sizes, sized deallocation, valid use. *)
From Coq Require Import String ZArith List Bool Lia ZifyBool Permutation.
From Verif Require Import M_Base M_Config M_SizeClass M_Libdivide M_OS M_Random M_Slab M_Region M_Api M_Hist S_SizeClass S_Heap
  P_Base P_Count P_SizeClass P_SizeClass2 P_Libdivide P_Random P_OS P_Slab1 P_Slab2 P_Region P_Heap1 P_Heap2 P_Heap3 P_Heap4 P_Heap5 P_Heap6 P_Heap7 P_Heap8 P_Heap9 P_Heap10 P_Heap11 P_Init P_Api0 P_Api1 P_Api2 P_Api3 P_Api4 P_Api5.
Import ListNotations.
Open Scope Z_scope.
Ltac Zify.zify_post_hook ::= idtac.

(** ** C17 *)
Lemma C17_exact_l g W o t s p c m n : usable_config g = true -> history g W o t s -> In (p, c) (live t) -> (c = OMalloc m \/ exists a b, c = OCalloc a b /\ m = a * b) -> word m ->
  usable_size g s p n -> malloc_size g m n.
Proof.
  intros U H HL Hc WM US. destruct (history_linv _ _ _ _ _ U H) as (LL & LI). destruct (live_block _ _ _ _ _ _ LI HL) as (n' & B & _). rewrite (usable_eq _ _ _ _ _ _ _ _ LI HL B US).
  apply (live_exact _ _ _ _ _ _ _ _ LI HL Hc WM B).
Qed.
Lemma C17_sizes g W o t s p c n : usable_config g = true -> history g W o t s -> In (p, c) (live t) -> usable_size g s p n -> n + canary_size g <= max_slab_size_class g -> ~ overaligned g c ->
  n = 0 \/ S_SizeClass.slab_class (max_slab_size_class g) (n + canary_size g).
Proof.
  intros U H HL US SZ NO. destruct (history_linv _ _ _ _ _ U H) as (LL & LI). destruct (small_slab g t s LL p c n LI HL (conj US (conj SZ NO))) as [L B].
  pose proof (ready_block _ _ _ _ _ (li_ready _ _ _ _ LI) B) as HI. destruct (slab_block _ _ _ _ _ HI L B) as (a & k & i & j & SB & ->). unfold usable_of in *. destruct (Z.eqb_spec k 0) as [K|K]; [auto|right].
  replace (slot_size g k - canary_size g + canary_size g) with (slot_size g k) by lia. apply table_spec. assert (0 <= k < N_SIZE_CLASSES g) as Hk by apply SB. pose proof (class_facts_all g k Hk) as [].
  replace (slot_size g k) with (class_size g k) by (rewrite cf_size; replace (k =? 0) with false by lia; reflexivity). unfold class_size. destruct (lget_in_range (size_classes g) k) as (x & E). { exact Hk. } rewrite E. apply (lget_In _ _ _ E).
Qed.
Lemma C17_stable_l g W o t s t' s' p c n n' : usable_config g = true -> history g W o t s -> In (p, c) (live t) -> continues g W t s t' s' -> (forall e, In e (since t t') -> keeps (e_op e) (e_ans e) p) ->
  usable_size g s p n -> usable_size g s' p n' -> n' = n.
Proof.
  intros U H HL K KP US US'. destruct (history_linv _ _ _ _ _ U H) as (LL & LI). destruct (live_block _ _ _ _ _ _ LI HL) as (n0 & B & _ & _ & PW & _). rewrite (usable_eq _ _ _ _ _ _ _ _ LI HL B US).
  destruct (cont_linv _ _ _ _ _ _ _ U H K LL LI) as (LL' & LI' & KB). pose proof (KB p n0 B KP) as B'. pose proof (ready_block _ _ _ _ _ (li_ready _ _ _ _ LI') B') as HI'.
  apply (block_fun g s' LL' [] (hi_inv _ _ _ HI') p); [|auto]. apply usable_block; auto. apply LI'.
Qed.
Lemma C17_dead g W o t s p : usable_config g = true -> history g W o t s -> word p -> p <> 0 -> ~ is_live t p -> exists m, run (h_malloc_usable_size g p) s = Fail (Fatal m).
Proof.
  intros U H WD P0 NL. destruct (history_linv _ _ _ _ _ U H) as (LL & LI). pose proof (dead_nonblock _ _ _ _ _ LI NL) as NB.
  pose proof (usable_wp g s LL p (li_ready _ _ _ _ LI) WD) as Wp. unfold wp in Wp. destruct (run (h_malloc_usable_size g p) s) as [[n s']|f] eqn:E.
  - exfalso. destruct Wp as [_ Wp]. replace (p =? 0) with false in Wp by lia. exact (NB n (proj1 Wp)).
  - destruct Wp as (_ & (m & ->) & _). eauto.
Qed.
Lemma C17_null g s n : usable_size g s 0 n <-> n = 0.
Proof. unfold usable_size. cbn. split; [intros (s' & H); injection H as H1 H2; auto|intros ->; exists s; reflexivity]. Qed.

(** ** C18 *)
Lemma object_returns g t s LL p q c n : linv g t s LL -> In (q, c) (live t) -> small g s q c n -> q <= p < q + n -> exists s', run (h_malloc_object_size g p) s = Ok (q + n - p, s').
Proof.
  intros LI HL SM Hp. destruct (small_slab _ _ _ _ _ _ _ LI HL SM) as [L B]. pose proof (ready_block _ _ _ _ _ (li_ready _ _ _ _ LI) B) as HI.
  destruct (block_bounds g s LL [] (hi_inv _ _ _ HI) q n B) as (P1 & P2 & P3). assert (inside g s LL p q n) as IN by (split; auto).
  assert (0 <= p < 2 ^ 64) as WD by (change (2 ^ 48) with 281474976710656 in *; change (2 ^ 64) with 18446744073709551616; lia).
  pose proof (object_wp g s LL p (li_ready _ _ _ _ LI) WD) as Wp. unfold wp in Wp. destruct (run (h_malloc_object_size g p) s) as [[r s']|f].
  - destruct Wp as (_ & _ & R & _). rewrite (R q n IN). eauto.
  - destruct Wp as (_ & X). elim (X _ _ IN).
Qed.
Lemma C18_small_l g W o t s p q c n : usable_config g = true -> history g W o t s -> In (q, c) (live t) -> small g s q c n -> q <= p < q + n -> exists s', run (h_malloc_object_size g p) s = Ok (q + n - p, s').
Proof. intros U H HL SM Hp. destruct (history_linv _ _ _ _ _ U H) as (LL & LI). eapply object_returns; eauto. Qed.
Lemma C18_outside_l g W o t s p : usable_config g = true -> history g W o t s -> word p -> p <> 0 -> ~ (st_start s <= p < st_end s) ->
  exists r s', run (h_malloc_object_size g p) s = Ok (r, s') /\ (~ is_live t p -> r = 2 ^ 64 - 1) /\ (forall n, is_live t p -> usable_size g s p n -> r = n).
Proof.
  intros U H WD P0 OS. destruct (history_linv _ _ _ _ _ U H) as (LL & LI). assert (in_slab_region p s = false) as L by (unfold in_slab_region; lia).
  pose proof (object_wp g s LL p (li_ready _ _ _ _ LI) WD) as Wp. unfold wp in Wp. destruct (run (h_malloc_object_size g p) s) as [[r s']|f].
  - exists r, s'. split; [auto|]. destruct Wp as (_ & _ & _ & R1 & R2). split.
    + intros NL. rewrite R2; [reflexivity|auto|auto|]. eapply dead_nonblock; eauto.
    + intros n (c & HL) US. destruct (live_block _ _ _ _ _ _ LI HL) as (m & B & _). rewrite (usable_eq _ _ _ _ _ _ _ _ LI HL B US). apply R1; auto.
  - destruct Wp as (X & _). congruence.
Qed.
Lemma C18_fast_l g W o t s p : usable_config g = true -> history g W o t s -> word p ->
  exists r, run (h_malloc_object_size_fast g p) s = Ok (r, s) /\ (p = 0 -> r = 0) /\ forall q c n, In (q, c) (live t) -> extent g s q c n -> q <= p < q + n -> q + n - p <= r.
Proof.
  intros U H WD. destruct (history_linv _ _ _ _ _ U H) as (LL & LI). pose proof (object_fast_wp g s LL p (li_ready _ _ _ _ LI) WD) as Wp. unfold wp in Wp.
  destruct (run (h_malloc_object_size_fast g p) s) as [[r s']|f]; [|destruct Wp]. destruct Wp as (-> & Z0 & R). exists r. split; [auto|]. split; [auto|].
  intros q c n HL X Hp. destruct (ext_block _ _ _ _ _ _ _ LI HL X) as (m & B & L). specialize (R q m B ltac:(lia)). lia.
Qed.
Lemma C18_null_l g s : run (h_malloc_object_size g 0) s = Ok (0, s). Proof. reflexivity. Qed.

(** ** C19 *)
Lemma large_cap g n : 0 <= n <= max_slab_size_class g -> get_large_size_class g n <= max_slab_size_class g.
Proof.
  intros H. pose proof (max_ge g). pose proof (max_slab_bounds g). unfold get_large_size_class. destruct (LARGE_SIZE_CLASSES g).
  - destruct (small_rounding g (Z.max n PAGE_SIZE) ltac:(unfold PAGE_SIZE; lia)) as [(R1 & _) _]. destruct R1 as [R|[(k & Hk & R)|(R & _)]]; lia.
  - rewrite page_align_small by (change (2 ^ 64) with 18446744073709551616; lia). assert (max_slab_size_class g mod 4096 = 0) as M by (unfold max_slab_size_class; destruct (EXTENDED_SIZE_CLASSES g); reflexivity).
    pose proof (Z.div_mod (max_slab_size_class g) 4096 ltac:(lia)) as D. pose proof (Z.div_mod (n + 4095) 4096 ltac:(lia)). pose proof (Z.mod_pos_bound (n + 4095) 4096 ltac:(lia)). lia.
Qed.
Lemma gsi_over g x : max_slab_size_class g < x < 2 ^ 64 -> si_size (get_size_info x) = 0 /\ 7 * 2 ^ 61 < x \/ x <= si_size (get_size_info x).
Proof.
  intros H. pose proof (max_ge g). destruct (large_shift x) as (k & Hk & Hk'); [lia|]. rewrite (gsi_size_large x k) by (auto; lia).
  destruct (Z.leb_spec x (7 * 2 ^ 61)) as [L|L]; [right|left; auto]. pose proof (gsi_waste x ltac:(lia)) as [G _]. rewrite (gsi_size_large x k) in G by (auto; lia). replace (x <=? 7 * 2 ^ 61) with true in G by lia. exact G.
Qed.
Lemma usable_inj g k k' : 0 <= k < N_SIZE_CLASSES g -> 0 <= k' < N_SIZE_CLASSES g -> usable_of g k = usable_of g k' -> k = k'.
Proof.
  intros H H' E. pose proof (usable_bounds g k H) as B. pose proof (usable_bounds g k' H') as B'. pose proof (class_facts_all g k H) as C1. pose proof (class_facts_all g k' H') as C'.
  destruct (lget_in_range (size_classes g) k H) as (x & X). destruct (lget_in_range (size_classes g) k' H') as (y & Y). pose proof (class_size_lget _ _ _ X) as EX. pose proof (class_size_lget _ _ _ Y) as EY.
  assert (x = y) as XY. { rewrite <- EX, <- EY, (cf_size _ _ C1), (cf_size _ _ C'). pose proof (cf_s16 _ _ C1). pose proof (cf_s16 _ _ C'). unfold usable_of in *. destruct (k =? 0) eqn:A; destruct (k' =? 0) eqn:A'; lia. }
  apply gsi_fix in X, Y. rewrite XY in X. congruence.
Qed.
Lemma same_fun g m n r r' : same_size g m n -> rounds_to g m r -> rounds_to g n r' -> r = r'.
Proof. intros (x & A & B) C D. rewrite (least_fun _ _ _ _ C A). apply (least_fun _ _ _ _ B D). Qed.
Lemma malloc_shape g t s LL p m : linv g t s LL -> In (p, OMalloc m) (live t) -> word m ->
  if in_slab_region p s then padded g m <= max_slab_size_class g /\ class_size g (snd (slab_size_class g s p)) = si_size (get_size_info (padded g m))
  else forall u, block g s LL p u -> max_slab_size_class g < padded g m /\ u = get_large_size_class g (padded g m) /\ max_slab_size_class g < u.
Proof.
  intros LI HL WM. unfold word in *. destruct (live_block _ _ _ _ _ _ LI HL) as (u & B & _ & HI & PW & _). destruct (live_exact _ _ _ _ _ _ m u LI HL (or_introl eq_refl) WM B) as (MS & EU & NZ).
  destruct (li_blk _ _ _ _ LI _ _ HL) as (_ & _ & _ & _ & G & _). destruct (padded_bounds g m WM) as [PM PM0]. pose proof (max_ge g) as MG. pose proof (canary_le g).
  destruct (in_slab_region p s) eqn:L.
  - destruct (slab_block _ _ _ _ _ HI L B) as (a & k & i & j & SB & Eu). destruct (sblk_loc g s LL [] (hi_inv _ _ _ HI) _ _ _ _ _ SB) as [_ E']. rewrite E'. cbn [snd].
    assert (0 <= k < N_SIZE_CLASSES g) as Hk by apply SB. pose proof (class_facts_all g k Hk) as CF.
    assert (padded g m <= max_slab_size_class g) as SM.
    { destruct (Z_le_gt_dec (padded g m) (max_slab_size_class g)); [auto|]. exfalso. destruct NZ as [NZ|NZ]; [|lia]. unfold grant in EU. replace (padded g m <=? max_slab_size_class g) with false in EU by lia.
      destruct (large_class_all g (padded g m) ltac:(lia)) as (_ & _ & _ & R). rewrite <- EU in R. specialize (R NZ). rewrite Eu in R. unfold usable_of in R. pose proof (cf_max _ _ CF). destruct (Z.eqb_spec k 0); lia. }
    assert (k = si_class (get_size_info (padded g m))) as Ek.
    { unfold grant in EU. replace (padded g m <=? max_slab_size_class g) with true in EU by lia. rewrite Eu in EU. destruct (gsi_class_range g (padded g m) ltac:(lia)) as (R & _). apply (usable_inj g k _ Hk R EU). }
    destruct (gsi_class_range g (padded g m) ltac:(lia)) as (R & Es & C0). rewrite <- Ek in Es. split; auto.
  - intros u' B'. rewrite (block_fun g s LL [] (hi_inv _ _ _ HI) p u' u B' B). clear u' B'. destruct (large_block _ _ _ _ _ HI L B) as (gd & Hin). assert (max_slab_size_class g < u) as BU. { destruct G as [[G _]|G]; [cbn in G; lia|]. exact (G _ _ Hin). }
    assert (max_slab_size_class g < padded g m) as SM.
    { destruct (Z_le_gt_dec (padded g m) (max_slab_size_class g)); [|lia]. exfalso. unfold grant in EU. replace (padded g m <=? max_slab_size_class g) with true in EU by lia.
      destruct (gsi_class_range g (padded g m) ltac:(lia)) as (R & Es & _). pose proof (usable_bounds g _ R). pose proof (class_facts_all g _ R) as []. unfold usable_of in *. destruct (si_class _ =? 0); lia. }
    unfold grant in EU. replace (padded g m <=? max_slab_size_class g) with false in EU by lia. auto.
Qed.
Lemma small_cap g x : 0 <= x <= max_slab_size_class g -> x <= si_size (get_size_info x) <= max_slab_size_class g.
Proof. intros H. pose proof (max_ge g). destruct (small_rounding g x H) as [(R1 & R2 & _) _]. destruct R1 as [X|[(q & Hq & X)|(X & _)]]; lia. Qed.
Lemma sized_same g t s LL p m n : linv g t s LL -> In (p, OMalloc m) (live t) -> word m -> word n ->
  (if in_slab_region p s then si_size (get_size_info (padded g n)) = class_size g (snd (slab_size_class g s p)) else forall u, block g s LL p u -> u = get_large_size_class g (padded g n)) ->
  m <> 0 \/ n <= 7 * 2 ^ 61 -> same_size g m n.
Proof.
  intros LI HL WM WN E EX. pose proof (malloc_shape _ _ _ _ _ _ LI HL WM) as MS. unfold word in *. destruct (live_block _ _ _ _ _ _ LI HL) as (u & B & _ & HI & PW & _).
  destruct (padded_bounds g m WM) as [PM PM0]. destruct (padded_bounds g n WN) as [PN PN0]. pose proof (max_ge g) as MG. pose proof (canary_le g).
  destruct (in_slab_region p s) eqn:L.
  - destruct MS as [SM Es]. rewrite Es in E. exists (si_size (get_size_info (padded g m))). split; [apply rounds_small; auto|].
    destruct (Z_le_gt_dec (padded g n) (max_slab_size_class g)) as [Ln|Ln]; [apply rounds_small; auto|]. exfalso. pose proof (small_cap g (padded g m) ltac:(lia)) as R3.
    destruct (gsi_over g (padded g n) ltac:(lia)) as [(Z1 & Z2)|Z1]; [|lia]. destruct EX as [EX|EX]; [|unfold padded in Z2; destruct (_ && _) eqn:Q in Z2; [rewrite andb_true_iff in Q|]; change (2 ^ 61) with 2305843009213693952 in *; pose proof (max_slab_bounds g); lia].
    lia.
  - specialize (E u B). destruct (MS u B) as (SM & EU & BU). exists u. split; [rewrite EU; apply rounds_large; auto; lia|].
    assert (max_slab_size_class g < padded g n) as SN. { destruct (Z_le_gt_dec (padded g n) (max_slab_size_class g)) as [X|X]; [|lia]. pose proof (large_cap g (padded g n) ltac:(lia)). lia. }
    rewrite E. apply rounds_large; auto; lia.
Qed.
Lemma sized_diff g t s LL p m n f : linv g t s LL -> In (p, OMalloc m) (live t) -> word m -> word n -> sized_fault g s LL p n f -> size_mismatch f /\ ~ same_size g m n.
Proof.
  intros LI HL WM WN SF. pose proof (malloc_shape _ _ _ _ _ _ LI HL WM) as MS. unfold word in *. destruct (live_block _ _ _ _ _ _ LI HL) as (u & B & _ & HI & PW & _).
  destruct (padded_bounds g m WM) as [PM PM0]. destruct (padded_bounds g n WN) as [PN PN0]. unfold sized_fault in SF. rewrite adjust_padded in SF by auto.
  destruct SF as [[(-> & e & [= <-] & NE) L]|[(-> & e & sz & gd & [= <-] & Hin & NE) L]]; rewrite L in MS.
  - split; [left; reflexivity|]. intros (r & R1 & R2). destruct MS as [SM Es]. apply rounds_small in R1; [|auto|auto]. pose proof (small_cap g (padded g m) ltac:(lia)) as R3.
    pose proof (rounds_ge _ _ _ R2). apply rounds_small in R2; [|auto|lia]. congruence.
  - split; [right; reflexivity|]. assert (block g s LL p sz) as BS by (right; exists gd; exact Hin). destruct (MS sz BS) as (SM & EU & BU). intros (r & R1 & R2). pose proof (max_ge g). apply rounds_large in R1; [|auto|auto|lia]. pose proof (rounds_ge _ _ _ R2).
    assert (r = sz) as -> by congruence. destruct (Z_le_gt_dec (padded g n) (max_slab_size_class g)) as [X|X].
    + apply rounds_small in R2; [|auto|auto]. pose proof (small_cap g (padded g n) ltac:(lia)). lia.
    + pose proof (max_ge g). destruct (Z.eq_dec (get_large_size_class g (padded g n)) 0) as [Z0|Z0]; [|apply rounds_large in R2; [congruence|auto|lia|auto]].
      unfold rounds_to in R2. replace (padded g n <=? max_slab_size_class g) with false in R2 by lia. destruct (large_rounding g (padded g n) ltac:(lia)) as (tt & R & E). rewrite Z0 in E. assert (sz = tt) by (apply (least_fun _ _ _ _ R2 R)). subst tt.
      assert (sz < 2 ^ 64) by (destruct (large_class_all g (padded g m) ltac:(lia)) as (_ & Y & _); lia). replace (sz <? 2 ^ 64) with true in E by lia. pose proof (max_ge g). lia.
Qed.
Lemma C19_call g W o t s tid p m n : usable_config g = true -> history g W o t s -> In (p, OMalloc m) (live t) -> word m -> word n -> (m <> 0 \/ n <= 7 * 2 ^ 61) ->
  (exists s', run (op_run g tid (OFreeSized p n)) s = Ok (AUnit, s') /\ same_size g m n) \/
  (exists f, run (op_run g tid (OFreeSized p n)) s = Fail f /\ (size_mismatch f /\ ~ same_size g m n \/ kernel_abort f \/ f = Fatal "canary corrupted" /\ ~ clean g s)).
Proof.
  intros U H HL WM WN EX. destruct (history_linv _ _ _ _ _ U H) as (LL & LI). destruct (live_block _ _ _ _ _ _ LI HL) as (u & B & _ & HI & PW & _). cbn [op_run].
  pose proof (free_sized_wp g s LL p n (li_ready _ _ _ _ LI) ltac:(lia) WN) as Wp. unfold wp in Wp. destruct (run (h_free_sized g p n) s) as [[[] s']|f] eqn:E.
  - left. exists s'. split; [exact (run_pmap_ok (fun _ : unit => AUnit) _ _ _ _ E)|]. replace (p =? 0) with false in Wp by lia. destruct Wp as (LL' & u' & F & X). rewrite adjust_padded in X by auto.
    apply (sized_same g t s LL p m n LI HL WM WN); [|auto]. destruct (in_slab_region p s); [exact X|]. intros v V. rewrite (block_fun g s LL [] (hi_inv _ _ _ HI) p v u' V (fr_blk _ _ _ _ _ _ _ F)). exact X.
  - right. exists f. split; [apply (run_pmap_dead (fun _ : unit => AUnit)); exact E|]. destruct Wp as (P0 & [[(F & _)|[(F & _)|[(_ & F)|(-> & _ & _ & F)]]]|SF]).
    + right. left. apply sys_abort; auto.
    + right. left. apply rng_abort; auto.
    + elim (F u B).
    + auto.
    + left. eapply sized_diff; eauto.
Qed.
Lemma live_words g W o t s : history g W o t s -> forall p c, In (p, c) (live t) -> words c.
Proof.
  intros H. induction H as [|t s tid c a s' H IH TC WD PM ST E]; [intros p c []|]. intros p d HI. cbn [live] in HI. unfold after in HI. cbn [e_op e_ans] in HI.
  destruct c; destruct a; cbn [allocates] in HI; try (apply (IH _ _ HI)); try (destruct HI as [[= <- <-]|HI]; [exact WD|]); try (apply (IH _ _ HI)); apply forget_In in HI; apply (IH p d (proj1 HI)).
Qed.
