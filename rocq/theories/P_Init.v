(** Initialization establishes the heap invariant. *)
From Coq Require Import String ZArith List Bool Lia ZifyBool Permutation.
From Verif Require Import M_Base M_Config M_SizeClass M_Libdivide M_OS M_Random M_Slab M_Region M_Api
  P_Base P_Count P_SizeClass P_Libdivide P_Random P_Random2 P_Bitmap P_Bitmap2 P_OS P_Links P_Slab1 P_Slab2 P_Slab3 P_Slab4 P_Slab9
  P_Region P_Region2 P_Region3 P_Heap1 P_Heap2 P_Heap3 P_Heap4 P_Heap5 P_Path P_Heap6 P_Heap7.
Import ListNotations.
Open Scope Z_scope.
Ltac Zify.zify_post_hook ::= idtac.

(** ** one size class *)
Definition class0 (g : config) (base start a k : Z) (c : size_class) : Prop :=
  exists gap d1 d2 rng, 4096 <= gap <= CLASS_REGION_SIZE g - 4096 /\ gap mod 4096 = 0 /\ rng_ok rng /\
    libdivide_u32_gen (slot_size g k) = Some d1 /\ libdivide_u64_gen (slab_size_of g k) = Some d2 /\
    c = mkClass (start + ARENA_SIZE g * a + REAL_CLASS_REGION_SIZE g * k + gap) (slab_info_at g base a k) d1 d2
             (repeat 0 (Z.to_nat (quarantine_random_dim g))) (repeat 0 (Z.to_nat (quarantine_queue_dim g))) 0
             None None 0 None None
             (repeat None (Z.to_nat (FREE_SLABS_QUARANTINE_RANDOM_LENGTH g)))
             0 0 0 0 rng 0 0 0 (fun _ => slab_zero).
Lemma class_addr_bound g (s : state) start a k : usable_config g = true -> class_in g a k -> 0 <= start -> start + slab_region_size g + 4095 <= 2 ^ 47 ->
  0 <= start + ARENA_SIZE g * a + REAL_CLASS_REGION_SIZE g * k /\ start + ARENA_SIZE g * a + REAL_CLASS_REGION_SIZE g * k + REAL_CLASS_REGION_SIZE g <= 2 ^ 47.
Proof. intros U C H1 H2. pose proof (class_lo_in g (set_st_start start s) a k U C) as H. unfold class_lo in H. cbn [st_start set_st_start] in H. lia. Qed.

Lemma init_class_wp g (s : state) base start a k t : usable_config g = true -> class_in g a k -> 4096 <= start -> start + slab_region_size g + 4095 <= 2 ^ 47 -> rng_ok (r_rng t) ->
  wp (init_class g base start a k) t (fun c t' => class0 g base start a k c /\ rng_ok (r_rng t') /\ os_rel (r_os t) (r_os t')) rng_fault.
Proof.
  intros U C H1 H2 R. pose proof (class_addr_bound g s start a k U C ltac:(lia) H2) as [B1 B2]. pose proof (gfacts_of g U) as []. pose proof (class_facts_all g k (proj2 C)) as [].
  unfold init_class. apply wp_bind. eapply wp_mono; [apply init_from_ok; [exact R|reflexivity]| |auto]. intros crng t1 (R1 & R2 & O1).
  apply wp_bind. assert (REAL_CLASS_REGION_SIZE g = CLASS_REGION_SIZE g * 2) as ER by reflexivity.
  replace (REAL_CLASS_REGION_SIZE g - CLASS_REGION_SIZE g) with (CLASS_REGION_SIZE g) by lia. change PAGE_SIZE with 4096.
  pose proof (Z.div_mod (CLASS_REGION_SIZE g) 4096 ltac:(lia)) as DM. change (2 ^ 47) with 140737488355328 in *.
  eapply wp_mono; [apply u64_uniform_ok; [exact R2|change (2 ^ 64) with 18446744073709551616; lia]| |auto]. intros x t2 (X1 & X2 & R3 & O2).
  assert (x < CLASS_REGION_SIZE g / 4096 - 1) as X3 by lia. rewrite (w64_small ((x + 1) * 4096)) by (change (2 ^ 64) with 18446744073709551616; lia).
  rewrite w64_small by (change (2 ^ 64) with 18446744073709551616; lia).
  destruct (libdivide_correct 32 (slot_size g k) 0) as (d1 & E1 & _); [auto|change (2 ^ 32) with 4294967296; lia|change (2 ^ 32) with 4294967296; lia|].
  destruct (libdivide_correct 64 (slab_size_of g k) 0) as (d2 & E2 & _); [auto|change (2 ^ 64) with 18446744073709551616; lia|change (2 ^ 64) with 18446744073709551616; lia|].
  unfold libdivide_u32_gen, libdivide_u64_gen. rewrite E1, E2. apply wp_ret. split; [|split; [exact R3|eapply os_rel_trans; eassumption]].
  exists ((x + 1) * 4096), d1, d2, crng. repeat (split; [first [exact E1|exact E2|exact R1|apply Z.mod_mul; lia|lia]|]). reflexivity.
Qed.
Lemma init_classes_wp g (s : state) base start l : usable_config g = true -> (forall a k, In (a, k) l -> class_in g a k) -> 4096 <= start -> start + slab_region_size g + 4095 <= 2 ^ 47 ->
  forall cls t (D : Z -> Z -> Prop), rng_ok (r_rng t) -> (forall a k, D a k -> class0 g base start a k (cls a k)) ->
  wp (init_classes g base start l cls) t (fun cls' t' => (forall a k, D a k \/ In (a, k) l -> class0 g base start a k (cls' a k)) /\ rng_ok (r_rng t') /\ os_rel (r_os t) (r_os t')) rng_fault.
Proof.
  intros U Hl H1 H2. induction l as [|[a k] l IH]; intros cls t D R Hc.
  - apply wp_ret. split; [|split; [exact R|apply os_rel_refl]]. intros a k [H|[]]. auto.
  - cbn [init_classes]. apply wp_bind. eapply wp_mono; [apply (init_class_wp g s base start a k); auto; apply Hl; left; reflexivity| |auto]. intros c t1 (C0 & R1 & O1).
    eapply wp_mono; [apply (IH (fun x y Hxy => Hl x y (or_intror Hxy)) _ _ (fun x y => D x y \/ (x = a /\ y = k))); auto| |auto].
    + intros x y H. destruct ((x =? a) && (y =? k)) eqn:E; [assert (x = a /\ y = k) as [-> ->] by lia; exact C0|]. destruct H as [H|[-> ->]]; [auto|]. lia.
    + intros cls' t' (A & B & O2). split; [|split; [exact B|eapply os_rel_trans; eassumption]]. intros x y [H|[[= -> ->]|H]]; auto.
Qed.
Lemma all_classes_in g a k : In (a, k) (all_classes g) <-> class_in g a k.
Proof.
  unfold all_classes, class_in. rewrite in_flat_map. split.
  - intros (x & Hx & H). apply in_map_iff in H. destruct H as (y & [= -> ->] & Hy). apply in_zrange in Hx, Hy. lia.
  - intros [Ha Hk]. exists a. split; [apply in_zrange; lia|]. apply in_map_iff. exists k. split; [reflexivity|]. apply in_zrange. lia.
Qed.

Lemma slab_zero_ok n : slab_ok n slab_zero.
Proof.
  assert (forall j, bm_get [0; 0; 0; 0] j = false) as Z0.
  { intros j. unfold bm_get, word64. destruct (lget [0; 0; 0; 0] (j / 64)) as [x|] eqn:E; [|rewrite Z.shiftr_0_l; reflexivity].
    apply lget_In in E. cbn in E. assert (x = 0) as -> by intuition. rewrite Z.shiftr_0_l; reflexivity. }
  assert (bm_ok [0; 0; 0; 0]) as B.
  { split; [reflexivity|]. intros i Hi. unfold word64. destruct (lget [0; 0; 0; 0] i) as [x|] eqn:E; [|lia]. apply lget_In in E. cbn in E. assert (x = 0) as -> by intuition. lia. }
  constructor; cbn [slab_zero sb_bitmap sb_qbitmap sb_count sb_canary]; auto.
  - symmetry. apply zcount_zero. auto.
  - split; [lia|reflexivity].
Qed.
Lemma somes_repeat_none n : somes (repeat (@None Z) n) = []. Proof. induction n; auto. Qed.
Lemma nz_repeat n : nz (repeat 0 n) = []. Proof. induction n; auto. Qed.
Lemma nz_app a b : nz (a ++ b) = nz a ++ nz b. Proof. unfold nz. apply filter_app. Qed.

Lemma class0_start g base start a k c : class0 g base start a k c ->
  start + ARENA_SIZE g * a + REAL_CLASS_REGION_SIZE g * k + 4096 <= c_start c /\ c_start c + CLASS_REGION_SIZE g + 4096 <= start + ARENA_SIZE g * a + REAL_CLASS_REGION_SIZE g * k + REAL_CLASS_REGION_SIZE g /\ c_info c = slab_info_at g base a k.
Proof. intros (gap & d1 & d2 & rng & H1 & _ & _ & _ & _ & ->). cbn [c_start c_info]. unfold REAL_CLASS_REGION_SIZE. lia. Qed.
Lemma class0_used g base start a k c i j : class0 g base start a k c -> used c i j = false.
Proof.
  intros (gap & d1 & d2 & rng & _ & _ & _ & _ & _ & ->). unfold used. cbn [c_slabs slab_zero sb_bitmap].
  unfold bm_get, word64. destruct (lget [0; 0; 0; 0] (j / 64)) as [x|] eqn:E; [|rewrite Z.shiftr_0_l; reflexivity].
  apply lget_In in E. cbn in E. assert (x = 0) as -> by intuition. rewrite Z.shiftr_0_l; reflexivity.
Qed.
Lemma mod_mul4096 x y : x mod 4096 = 0 -> (x * y) mod 4096 = 0. Proof. intros H. rewrite Z.mul_mod, H by lia. reflexivity. Qed.
Lemma mod_add4096 x y : x mod 4096 = 0 -> y mod 4096 = 0 -> (x + y) mod 4096 = 0. Proof. intros H1 H2. rewrite Z.add_mod, H1, H2 by lia. reflexivity. Qed.

Lemma class0_inv g s o base start a k c : usable_config g = true -> class_in g a k -> class0 g base start a k c ->
  4096 <= base -> base mod 4096 = 0 -> 4096 <= start -> start mod 4096 = 0 -> start + slab_region_size g + 4095 <= 2 ^ 47 ->
  (forall q, in_pages base (sizeof_allocator_state g) q = true -> pages o q <> None /\ in_pages start (slab_region_size g) q = false) ->
  (forall q, in_pages start (slab_region_size g) q = true -> pages o q = Some PNone) ->
  (forall x, in_pages start (slab_region_size g) (page_of x) = true -> mem o x = 0) ->
  st_start s = start -> st_base s = base ->
  cinv g k o c.
Proof.
  intros U C C0 B1 B2 S1 S2 S3 PM PS MZ Es Eb. pose proof (class_addr_bound g s start a k U C ltac:(lia) S3) as [A1 A2]. pose proof (class0_start _ _ _ _ _ _ C0) as (P1 & P2 & P3).
  pose proof (gfacts_of g U) as F. pose proof (class_lo_in g s a k U C) as [L1 L2]. unfold class_lo in L1, L2. rewrite Es in L1, L2.
  pose proof (class_facts_all g k (proj2 C)) as CF. pose proof (ucfg_of g U) as UC.
  assert (forall q, in_pages (c_start c) (CLASS_REGION_SIZE g) q = true -> in_pages start (slab_region_size g) q = true) as SUB by (intros q; apply in_pages_sub; lia).
  assert (base <= slab_info_at g base a k /\ slab_info_at g base a k + sizeof_slab_info_mapping g <= base + sizeof_allocator_state g) as IB.
  { destruct C as [Ha Hk]. destruct F as [f1 f2 f3 f4 f5 f6 f7]. unfold slab_info_at, sizeof_allocator_state. rewrite off_i.
    assert (0 <= a * N_SIZE_CLASSES g + k < N_ARENA g * N_SIZE_CLASSES g) as B by nia. set (x := a * _ + k) in *. set (y := N_ARENA g * _) in *. nia. }
  assert (slab_info_at g base a k mod 4096 = 0) as IM.
  { destruct F as [f1 f2 f3 f4 f5 f6 f7]. unfold slab_info_at. rewrite off_i. apply mod_add4096; [apply mod_add4096; [auto|]|rewrite Z.mul_comm; apply mod_mul4096; apply f5].
    apply mod_add4096; [apply f6|rewrite Z.mul_comm; apply mod_mul4096, f4]. }
  assert (forall q, in_pages (c_info c) (sizeof_slab_info_mapping g) q = true -> in_pages base (sizeof_allocator_state g) q = true) as SUI by (intros q; rewrite P3; apply in_pages_sub; lia).
  destruct C0 as (gap & d1 & d2 & rng & G1 & G2 & R & D1 & D2 & ->). cbn [c_start c_info] in *.
  set (c := mkClass _ _ _ _ _ _ _ _ _ _ _ _ _ _ _ _ _ _ _ _ _ _).
  assert (forall i, cntof c i = 0) as CN by reflexivity.
  assert (forall i j, quar c i j = false) as QN.
  { intros i j. unfold quar, c. cbn [c_slabs slab_zero sb_qbitmap]. unfold bm_get, word64. destruct (lget [0; 0; 0; 0] (j / 64)) as [x|] eqn:E; [|rewrite Z.shiftr_0_l; reflexivity].
    apply lget_In in E. cbn in E. assert (x = 0) as -> by intuition. rewrite Z.shiftr_0_l; reflexivity. }
  assert (0 <= quarantine_random_dim g /\ 0 <= quarantine_queue_dim g) as [Q1 Q2] by (unfold quarantine_random_dim, quarantine_queue_dim; rewrite !Z.shiftl_nonneg; destruct UC; lia).
  exists [], [], []. split.
  - constructor.
    + constructor; auto.
      * apply C.
      * cbn [c c_start]. split; [lia|]. split; [|lia]. apply mod_add4096; [|auto].
        assert (REAL_CLASS_REGION_SIZE g mod 4096 = 0) as RM by (unfold REAL_CLASS_REGION_SIZE; apply mod_mul4096, F).
        apply mod_add4096; [apply mod_add4096; [auto|]|apply mod_mul4096, RM]. apply mod_mul4096. unfold ARENA_SIZE. apply mod_mul4096, RM.
      * cbn [c c_info]. lia.
      * cbn [c c_start c_info]. intros q Hq. destruct (in_pages (slab_info_at g base a k) _ q) eqn:E; [|auto]. destruct (PM q (SUI q E)) as [_ H]. rewrite (SUB q Hq) in H. discriminate.
    + assert (0 <= get_metadata_max g (slab_size_of g k)) as MM.
      { unfold get_metadata_max. apply Z.div_pos; destruct CF, F; lia. }
      constructor; cbn [c c_mallocated c_mcount c_munguarded]; try (destruct UC; lia).
      rewrite Z.mod_0_l by (destruct UC; lia). reflexivity.
    + intros i. apply slab_zero_ok.
    + constructor; cbn [c c_partial c_empty c_fhead c_ftail c_fq]; auto; try constructor; rewrite ?somes_repeat_none; try (intros i []); try constructor.
    + constructor; cbn [c c_fq c_mcount]; rewrite ?somes_repeat_none; cbn [app In].
      * intros i _. split; [intros []|]. rewrite CN. lia.
      * intros i _. split; [intros []|]. intros [[H _] _]. cbn in H. lia.
      * intros i. rewrite CN. lia.
      * intros i _. split; reflexivity.
      * intros i [=].
    + constructor; cbn [c c_qrandom c_qqueue c_qqidx].
      * rewrite zlen_repeat, Z2Nat.id by exact Q1. reflexivity.
      * rewrite zlen_repeat, Z2Nat.id by exact Q2. reflexivity.
      * split; [lia|]. intros H. unfold slab_quarantine_queue_length. rewrite Z.shiftl_mul_pow2 by (destruct CF; lia).
        assert (0 < 2 ^ quarantine_shift g (slot_size g k)) by (apply pow2_pos; destruct CF; lia). unfold SLAB_QUARANTINE_QUEUE_LENGTH in *. nia.
      * cbn [app]. rewrite nz_app, !nz_repeat. constructor.
      * cbn [app]. rewrite nz_app, !nz_repeat. intros p. split; [intros []|]. intros (i & j & _ & H & _). rewrite QN in H. discriminate.
    + constructor.
      * intros i q [H|[[]|[=]]]. rewrite CN in H. lia.
      * intros q Hq _. apply PS, SUB, Hq.
      * intros x Hx _. apply MZ, SUB, Hx.
      * intros q Hq. apply PM, SUI, Hq.
    + cbn [c c_empty_total]. unfold zlen. cbn. lia.
    + exact R.
    + cbn [c c_fq]. rewrite zlen_repeat, Z2Nat.id by (destruct UC; lia). reflexivity.
  - intros _. cbn [c c_slab_allocated]. unfold nact, nslabs. cbn [c c_mcount c_fq]. rewrite somes_repeat_none. rewrite Z.div_0_l by (destruct UC; lia). unfold zlen. cbn [length Z.of_nat].
    replace (0 - 0 - 0 - 0) with 0 by lia. rewrite Z.mul_0_r. reflexivity.
Qed.

(** ** the pages obtained during initialization *)
Definition took (u : bool) (p size gd : Z) (o o' : os) : Prop :=
  new_pages o o' /\ p mod 4096 = 0 /\ 4096 <= p - gd /\ p + size + gd + 4095 <= 2 ^ 47 /\
  (forall q, in_pages (p - gd) (size + 2 * gd) q = true -> pages o q = None /\ pages o' q = Some (if u && in_pages p size q then PRW else PNone)) /\
  (forall x, in_pages (p - gd) (size + 2 * gd) (page_of x) = true -> mem o' x = 0) /\
  (forall q, in_pages (p - gd) (size + 2 * gd) q = false -> pages o' q = pages o q).
Lemma allocate_pages_raw u size gd o : 0 < size -> 4096 <= gd < 2 ^ 64 -> gd mod 4096 = 0 ->
  wp (run (allocate_pages size gd u)) o (fun r o' => match r with None => True | Some p => took u p size gd o o' end) sys_fault.
Proof.
  intros Hs Hg Gm. unfold allocate_pages, add_guards, add_overflow.
  destruct (Z.ltb_spec (size + gd) (2 ^ 64)) as [L1|L1].
  2:{ apply wp_run_pbind, wp_run_act, wp_modify, wp_run_ret. exact I. }
  destruct (Z.ltb_spec (size + gd + gd) (2 ^ 64)) as [L2|L2].
  2:{ apply wp_run_pbind, wp_run_act, wp_modify, wp_run_ret. exact I. }
  apply wp_run_pbind, wp_run_act. eapply wp_mono; [apply memory_map_wp| |auto]. intros [real|] o1; cbn beta iota.
  2:{ intros _. apply wp_run_ret. exact I. }
  intros (-> & Ma & Mb & Mc & Md & Me). unfold ADDR_MAX in Mc. rewrite pages_all_spec in Me.
  change (2 ^ 47) with 140737488355328 in Mc.
  rewrite (w64_small (real + gd)) by (change (2 ^ 64) with 18446744073709551616; lia).
  set (L := size + gd + gd) in *. set (o1 := mapped_os real L o).
  assert (forall q, in_pages real L q = true -> pages o q = None) as Mu by (intros q Hq; specialize (Me q Hq); destruct (pages o q); [discriminate|auto]).
  assert (new_pages o o1) as N1 by (apply os_in_chg, os_in_mapped; exact Mu).
  assert (forall q, in_pages (real + gd) size q = true -> in_pages real L q = true) as SU by (intros q; apply in_pages_sub; unfold L; lia).
  assert ((real + gd) mod 4096 = 0) as Pm by (rewrite Z.add_mod, Ma, Gm by lia; reflexivity).
  destruct u.
  - apply wp_run_pbind, wp_run_act. eapply wp_mono; [apply memory_protect_wp| |auto]. intros [] o2; cbn beta iota.
    + intros ->. apply wp_run_pbind, wp_run_act. eapply wp_mono; [apply memory_unmap_wp| |auto]. intros b o3 H. apply wp_run_ret. exact I.
    + intros (-> & _ & _). apply wp_run_ret. split; [|split; [exact Pm|split; [lia|split; [change (2 ^ 47) with 140737488355328; unfold L in Mc; lia|]]]].
      * eapply os_chg_trans; [exact N1|]. apply os_in_chg, os_in_protected. intros q Hq. apply Mu, SU, Hq.
      * replace (real + gd - gd) with real by lia. replace (size + 2 * gd) with L by (unfold L; lia). split; [|split].
        -- intros q Hq. split; [apply Mu, Hq|]. unfold o1. cbn. rewrite Hq. destruct (in_pages (real + gd) size q); reflexivity.
        -- intros x Hx. unfold o1. cbn. rewrite Hx. reflexivity.
        -- intros q Hq. unfold o1. cbn. rewrite Hq. destruct (in_pages (real + gd) size q) eqn:E; [rewrite (SU q E) in Hq; discriminate|reflexivity].
  - apply wp_run_pbind, wp_run_ret, wp_run_ret. split; [exact N1|split; [exact Pm|split; [lia|split; [change (2 ^ 47) with 140737488355328; unfold L in Mc; lia|]]]].
    replace (real + gd - gd) with real by lia. replace (size + 2 * gd) with L by (unfold L; lia). split; [|split].
    + intros q Hq. split; [apply Mu, Hq|]. unfold o1. cbn. rewrite Hq. reflexivity.
    + intros x Hx. unfold o1. cbn. rewrite Hx. reflexivity.
    + intros q Hq. unfold o1. cbn. rewrite Hq. reflexivity.
Qed.

Definition init_msgs : list fault := [
  Fatal "failed to allocate init rng"; Fatal "failed to reserve allocator state"; Fatal "failed to unprotect allocator state";
  Fatal "failed to unprotect memory for regions table"; Fatal "failed to allocate slab region"]%string.
Definition init_fault (f : fault) : Prop := sys_fault f \/ rng_fault f \/ In f init_msgs.
Lemma need_wp {S A} msg (r : option A) (s : S) (Q : A -> S -> Prop) (E : fault -> Prop) : (r = None -> E (Fatal msg)) -> (forall x, r = Some x -> Q x s) -> wp (need msg r) s Q E.
Proof. intros H1 H2. destruct r; [apply wp_ret; auto|]. exact (H1 eq_refl). Qed.
Lemma must_wp {S} msg (b : bool) (s : S) (Q : unit -> S -> Prop) (E : fault -> Prop) : (b = true -> E (Fatal msg)) -> (b = false -> Q tt s) -> wp (must msg b) s Q E.
Proof. intros H1 H2. destruct b; [exact (H1 eq_refl)|apply wp_ret; auto]. Qed.

Definition no_regs (b : ground) : regs := mkRegs [] [] true b.
Record booted (g : config) (b : ground) (s s' : state) : Prop := {
  bo_inv : ginv g s' (no_regs b) [];
  bo_left : ra_leftover (st_ra s') = false;
  bo_total : ra_total (st_ra s') = 128;
  bo_ctr : st_ctr s' = st_ctr s;
  bo_arena : st_arena s' = st_arena s;
  bo_os : new_pages (st_os s) (st_os s');
  bo_used : forall a k i j, class_in g a k -> used (st_cls s' a k) i j = false;
  bo_fresh : forall a k, class_in g a k -> fresh_class g (st_cls s' a k);
  bo_clean : clean g s'
}.

Lemma chg_None o o' q : new_pages o o' -> pages o q <> None -> pages o' q = pages o q.
Proof. intros N H. apply (oc_pages _ _ _ N). auto. Qed.
Lemma chg_mem o o' x : new_pages o o' -> pages o (page_of x) <> None -> mem o' x = mem o x.
Proof. intros N H. apply (oc_mem _ _ _ N). auto. Qed.
Lemma rel_new o o' : os_rel o o' -> new_pages o o'.
Proof. intros [a b c d e f]. constructor; try congruence; try lia; intros; rewrite ?a, ?b; auto. Qed.

Lemma init_slow_wp g (b : ground) s : usable_config g = true -> is_init s = false -> (forall q, pages (st_os s) q <> None -> b q = true) -> REAL_CLASS_REGION_SIZE g <= gr_slack b ->
  wp (init_slow_path g) s (fun _ s' => booted g b s s') init_fault.
Proof.
  intros U NI HB HSl. pose proof (gfacts_of g U) as F. unfold init_slow_path. apply wp_bind, wp_get. rewrite NI. cbn [negb].
  assert (0 < sizeof_allocator_state g) as SA.
  { destruct F as [f1 f2 f3 f4 f5 f6 f7]. unfold sizeof_allocator_state. rewrite off_i. assert (0 <= N_ARENA g * N_SIZE_CLASSES g * sizeof_slab_info_mapping g) by (apply Z.mul_nonneg_nonneg; nia). lia. }
  (* the page of the generator *)
  apply wp_bind, wp_zoom. eapply wp_mono; [apply (allocate_pages_raw true sizeof_random_state PAGE_SIZE); unfold sizeof_random_state, PAGE_SIZE; [lia|split; [lia|reflexivity]|reflexivity]| |left; auto].
  intros r o1 T1. apply wp_bind, need_wp; [intros _; right; right; cbn; auto|]. intros rp ->. cbn beta iota in T1. destruct T1 as (N1 & R1 & R2 & R3 & R4 & R5 & R6). change PAGE_SIZE with 4096 in *. unfold sizeof_random_state in *.
  (* its seed and the first draw *)
  apply wp_bind, wp_zoom. cbn [st_os set_st_os]. apply wp_bind. eapply wp_mono; [apply init_wp| |intros; right; left; auto]. intros _ t1 (O1 & _ & rnd & Lr & Fr & Er). cbn [r_os r_rng] in O1, Er.
  assert (rng_ok (r_rng t1)) as K1. { rewrite Er. eexists; eexists; eexists. apply from_seed_at; [exact Lr|exact Fr|reflexivity]. }
  apply wp_bind. assert (0 < REAL_CLASS_REGION_SIZE g / 4096 <= 536870912) as BB.
  { destruct F as [f1 f2 f3 f4 f5 f6 f7]. unfold REAL_CLASS_REGION_SIZE. split; [apply Z.div_str_pos; lia|apply Z.div_le_upper_bound; lia]. }
  eapply wp_mono; [apply (u64_uniform_ok _ t1 K1); change (2 ^ 64) with 18446744073709551616; lia| |intros; right; left; auto]. intros x t2 (X1 & X2 & K2 & O2).
  apply wp_bind, wp_gets, wp_ret. cbn beta iota. set (gd := w64 ((x + 1) * 4096)).
  assert (gd = (x + 1) * 4096) as Eg by (unfold gd; apply w64_small; change (2 ^ 64) with 18446744073709551616; lia).
  set (o2 := r_os t2) in *. assert (os_rel o1 o2) as O12 by (eapply os_rel_trans; eassumption).
  (* the allocator state *)
  apply wp_bind, wp_zoom. cbn [st_os set_st_os]. eapply wp_mono; [apply (allocate_pages_raw false (sizeof_allocator_state g) gd); [exact SA|change (2 ^ 64) with 18446744073709551616; lia|rewrite Eg; apply Z.mod_mul; lia]| |left; auto].
  intros rb o3 T3. apply wp_bind, need_wp; [intros _; right; right; cbn; auto|]. intros base ->. cbn beta iota in T3. destruct T3 as (N3 & B1 & B2 & B3 & B4 & B5 & B6').
  apply wp_bind, wp_zoom. cbn [st_os set_st_os]. eapply wp_mono; [apply memory_protect_wp| |left; auto]. intros fd o4 H4. apply wp_bind, must_wp; [intros _; right; right; cbn; auto|]. intros ->. cbn beta iota in H4. destruct H4 as (-> & _ & _).
  (* the generator of the region allocator *)
  apply wp_bind, wp_zoom. cbn [st_os set_st_os]. apply wp_bind. eapply wp_mono; [apply init_from_ok; [exact K2|reflexivity]| |intros; right; left; auto]. intros rar t3 (K3 & K4 & O5). cbn [r_os r_rng] in O5.
  apply wp_bind, wp_gets, wp_ret. cbn beta iota. apply wp_bind, wp_modify.
  apply wp_bind, wp_zoom. cbn [st_os set_st_os set_st_ra]. eapply wp_mono; [apply memory_protect_wp| |left; auto]. intros fd o6 H6. apply wp_bind, must_wp; [intros _; right; right; cbn; auto 10|]. intros ->. cbn beta iota in H6. destruct H6 as (E6 & _ & _).
  (* the slab region *)
  apply wp_bind, wp_zoom. cbn [st_os set_st_os set_st_ra]. eapply wp_mono; [apply memory_map_wp| |left; auto]. intros rs o7 H7. apply wp_bind, need_wp; [intros _; right; right; cbn; auto 10|]. intros start ->. cbn beta iota in H7.
  destruct H7 as (E7 & S1 & S2 & S3 & S4 & S5). unfold ADDR_MAX in S3. rewrite pages_all_spec in S5.
  apply wp_bind, wp_zoom. cbn [st_os set_st_os set_st_ra].
  eapply wp_mono; [apply (init_classes_wp g s base start (all_classes g) U (fun a k => proj1 (all_classes_in g a k)) S2 S3 _ _ (fun _ _ => False)); [exact K4|intros a k []]| |intros; right; left; auto].
  intros cls t4 (C0 & K5 & O8). cbn [r_os] in O8. set (o8 := r_os t4) in *.
  apply wp_bind, wp_modify. cbn [st_os set_st_os set_st_ra set_st_base set_st_start set_st_cls st_cls st_ra st_base st_start st_end st_ctr st_arena].
  (* pages of the four parts at [o8] *)
  assert (forall q, in_pages base (OFF_REGIONS_A g) q = true -> in_pages base (sizeof_allocator_state g) q = true) as SB1.
  { intros q. apply in_pages_sub; [lia|]. destruct F as [f1 f2 f3 f4 f5 f6 f7]. unfold sizeof_allocator_state. rewrite off_i.
    assert (0 <= N_ARENA g * N_SIZE_CLASSES g * sizeof_slab_info_mapping g) by (apply Z.mul_nonneg_nonneg; nia). lia. }
  assert (forall q, in_pages (base + OFF_REGIONS_A g) (INITIAL_REGION_TABLE_SIZE * sizeof_region_metadata) q = true -> in_pages base (sizeof_allocator_state g) q = true) as SB2.
  { intros q. apply in_pages_sub; [destruct F; lia|]. destruct F as [f1 f2 f3 f4 f5 f6 f7]. unfold sizeof_allocator_state. rewrite off_i.
    assert (0 <= N_ARENA g * N_SIZE_CLASSES g * sizeof_slab_info_mapping g) by (apply Z.mul_nonneg_nonneg; nia).
    unfold INITIAL_REGION_TABLE_SIZE, sizeof_region_metadata. lia. }
  assert (forall q, in_pages base (sizeof_allocator_state g) q = true -> in_pages (base - gd) (sizeof_allocator_state g + 2 * gd) q = true) as SB3 by (intros q; apply in_pages_sub; lia).
  set (o4 := protected_os base (OFF_REGIONS_A g) PRW o3) in *. set (o5 := r_os t3) in *.
  assert (forall q, in_pages base (sizeof_allocator_state g) q = false -> pages o6 q = pages o3 q) as P63.
  { intros q Hq. rewrite E6. cbn. rewrite (or_pages _ _ O5). unfold o4. cbn.
    destruct (in_pages (base + OFF_REGIONS_A g) _ q) eqn:Q1; [rewrite (SB2 q Q1) in Hq; discriminate|]. destruct (in_pages base (OFF_REGIONS_A g) q) eqn:Q2; [rewrite (SB1 q Q2) in Hq; discriminate|]. reflexivity. }
  assert (forall q, pages o3 q <> None -> pages o6 q <> None) as P63m.
  { intros q Hq. rewrite E6. cbn. rewrite (or_pages _ _ O5). unfold o4. cbn. destruct (in_pages (base + OFF_REGIONS_A g) _ q); [discriminate|]. destruct (in_pages base (OFF_REGIONS_A g) q); [discriminate|]. auto. }
  assert (mem o6 = mem o3) as M63 by (rewrite E6; cbn; rewrite (or_mem _ _ O5); reflexivity).
  assert (forall q, pages o8 q = if in_pages start (slab_region_size g) q then Some PNone else pages o6 q) as P86 by (intros q; rewrite (or_pages _ _ O8), E7; reflexivity).
  assert (forall x, mem o8 x = if in_pages start (slab_region_size g) (page_of x) then 0 else mem o6 x) as M86 by (intros y; rewrite (or_mem _ _ O8), E7; reflexivity).
  set (rr := mkRegion rp 328 4096).
  assert (forall q, region_span rr q = in_pages (rp - 4096) (328 + 2 * 4096) q) as SR by reflexivity.
  (* the generator's page *)
  assert (forall q, region_span rr q = true -> pages o2 q = Some (if in_pages rp 328 q then PRW else PNone)) as Q2.
  { intros q Hq. rewrite SR in Hq. destruct (R4 q Hq) as [_ H]. rewrite (or_pages _ _ O12), H. reflexivity. }
  assert (forall q, region_span rr q = true -> in_pages (base - gd) (sizeof_allocator_state g + 2 * gd) q = false) as D23.
  { intros q Hq. destruct (in_pages (base - gd) _ q) eqn:E; [|auto]. destruct (B4 q E) as [H _]. rewrite (Q2 q Hq) in H. discriminate. }
  assert (forall q, region_span rr q = true -> pages o3 q = Some (if in_pages rp 328 q then PRW else PNone)) as Q3.
  { intros q Hq. rewrite <- (Q2 q Hq). apply (chg_None _ _ _ N3). rewrite (Q2 q Hq). discriminate. }
  assert (forall q, region_span rr q = true -> pages o6 q = Some (if in_pages rp 328 q then PRW else PNone)) as Q6.
  { intros q Hq. rewrite P63; [auto|]. destruct (in_pages base _ q) eqn:E; [|auto]. specialize (SB3 q E). rewrite (D23 q Hq) in SB3. discriminate. }
  assert (forall q, in_pages start (slab_region_size g) q = true -> pages o6 q = None) as S6.
  { intros q Hq. specialize (S5 q Hq). destruct (pages o6 q); [discriminate|auto]. }
  assert (forall q, region_span rr q = true -> in_pages start (slab_region_size g) q = false) as D24.
  { intros q Hq. destruct (in_pages start _ q) eqn:E; [|auto]. specialize (Q6 q Hq). rewrite (S6 q E) in Q6. discriminate. }
  assert (forall q, in_pages base (sizeof_allocator_state g) q = true -> pages o6 q <> None) as B6.
  { intros q Hq. apply P63m. destruct (B4 q (SB3 q Hq)) as [_ ->]. discriminate. }
  assert (forall q, in_pages base (sizeof_allocator_state g) q = true -> in_pages start (slab_region_size g) q = false) as D34.
  { intros q Hq. destruct (in_pages start _ q) eqn:E; [|auto]. elim (B6 q Hq). apply S6, E. }
  assert (forall q, in_pages base (sizeof_allocator_state g) q = true -> region_span rr q = false) as D23'.
  { intros q Hq. destruct (region_span rr q) eqn:E; [|auto]. specialize (SB3 q Hq). rewrite (D23 q E) in SB3. discriminate. }
  set (sE := mkSt o8 cls (ra_init g (base + OFF_REGIONS_A g) (base + OFF_REGIONS_B g) rar) base start (start + slab_region_size g) (st_ctr s) (st_arena s)).
  assert (forall a k, class_in g a k -> class0 g base start a k (cls a k)) as CC by (intros a k H; apply C0; right; apply all_classes_in; exact H).
  assert (forall o, spans g (set_st_os o sE) (no_regs b) [rflight rr] = [meta_span g sE; slab_span g sE; region_span rr]) as SPN.
  { intros o. unfold spans, fixed, qspans. cbn [no_regs rl_own map rflight fl_in app st_ra set_st_os sE ra_init ra_qrandom ra_qqueue].
    assert (forall n m, filter (fun e : Z * Z => negb (fst e =? 0)) (repeat (0, 0) n ++ repeat (0, 0) m) = []) as FE.
    { intros n m. rewrite filter_app. assert (forall i, filter (fun e : Z * Z => negb (fst e =? 0)) (repeat (0, 0) i) = []) as E by (induction i; auto). rewrite !E. reflexivity. }
    rewrite FE. reflexivity. }
  assert (ginv g (set_st_os o8 sE) (no_regs b) [rflight rr]) as GI8.
  { constructor.
    - exact U.
    - constructor; cbn [st_base st_start st_end st_ra set_st_os sE]; [split; [lia|split; [exact B1|lia]]|split; [exact S2|split; [exact S1|exact S3]]|reflexivity|]. intros []; reflexivity.
    - intros a k H. cbn [st_os st_cls set_st_os sE]. split.
      + eapply (class0_inv g sE o8 base start a k (cls a k) U H (CC a k H)); auto; try reflexivity; try lia.
        * intros q Hq. split; [|apply D34, Hq]. rewrite P86, (D34 q Hq). apply B6, Hq.
        * intros q Hq. rewrite P86, Hq. reflexivity.
        * intros y Hy. rewrite M86, Hy. reflexivity.
      + destruct (class0_start _ _ _ _ _ _ (CC a k H)) as (c1 & c2 & c3). constructor; unfold class_lo; cbn [st_start st_base set_st_os sE]; assumption.
    - apply ra_init_ok.
    - cbn [st_ra set_st_os sE]. pose proof (ucfg_of g U) as []. constructor; cbn [ra_init ra_qrandom ra_qqueue ra_qqidx ra_rng].
      + rewrite zlen_repeat, Z2Nat.id by lia. reflexivity.
      + rewrite zlen_repeat, Z2Nat.id by lia. reflexivity.
      + lia.
      + exact K3.
    - constructor.
    - intros r [].
    - intros f q [<-|[]] Hq. cbn [st_os set_st_os sE]. cbn [rflight fl_in fl_prot] in *. rewrite P86, (D24 q Hq), (Q6 q Hq). reflexivity.
    - intros q. rewrite SPN. cbn [cover]. unfold hit, meta_span, slab_span. cbn [st_base st_start sE].
      destruct (in_pages base _ q) eqn:E1; [rewrite (D34 q E1), (D23' q E1); lia|]. destruct (in_pages start _ q) eqn:E2; [|destruct (region_span rr q); lia].
      destruct (region_span rr q) eqn:E3; [rewrite (D24 q E3) in E2; discriminate|lia].
    - intros f q Hf Hq. rewrite SPN in Hf. cbn [st_os set_st_os sE]. rewrite P86. unfold meta_span, slab_span in Hf. cbn [st_base st_start sE] in Hf. destruct Hf as [<-|[<-|[<-|[]]]].
      + rewrite (D34 q Hq). apply B6, Hq.
      + rewrite Hq. discriminate.
      + rewrite (D24 q Hq), (Q6 q Hq). discriminate.
    - intros q Hq _. unfold slab_span in Hq. cbn [st_os set_st_os st_start sE] in *. rewrite P86, Hq. reflexivity.
    - intros _ _ f q Hf _. unfold qspans in Hf. cbn [st_ra set_st_os sE ra_init ra_qrandom ra_qqueue] in Hf. rewrite filter_app in Hf.
      assert (forall i, filter (fun e : Z * Z => negb (fst e =? 0)) (repeat (0, 0) i) = []) as E by (induction i; auto). rewrite !E in Hf. destruct Hf.
    - intros _ _. exists gd. split; [split; [pose proof (Z.mul_div_le (REAL_CLASS_REGION_SIZE g) 4096 ltac:(lia)); cbn [no_regs rl_base]; lia|rewrite Eg; apply Z.mod_mul; lia]|]. intros q Hq. rewrite SPN. unfold halo, meta_span, slab_span. cbn [cover st_base st_start set_st_os sE st_os no_regs rl_base] in *.
      destruct (in_pages (base - gd) (sizeof_allocator_state g + 2 * gd) q) eqn:E1; [auto|].
      destruct (in_pages start (slab_region_size g) q) eqn:E2; [right; right; unfold hit; rewrite E2; destruct (in_pages base _ q), (region_span rr q); lia|].
      destruct (region_span rr q) eqn:E3; [right; right; unfold hit; rewrite E2, E3; destruct (in_pages base _ q); lia|]. left. apply HB.
      rewrite P86, E2 in Hq. rewrite P63 in Hq; [|destruct (in_pages base _ q) eqn:E; [specialize (SB3 q E); congruence|auto]].
      rewrite B6' in Hq by exact E1. rewrite (or_pages _ _ O12) in Hq. rewrite R6 in Hq by (rewrite <- SR; exact E3). exact Hq. }
  apply wp_bind. apply wp_zoom. cbn [st_os].
  eapply wp_mono; [apply (deallocate_pages_wp g sE o8 (no_regs b) [] (rflight rr) rp 328 4096 GI8); try lia|
    |left; auto].
  - intros q. reflexivity.
  - intros _ o9 (GI9 & C9 & _). apply wp_modify. change (set_st_end _ _) with (set_st_os o9 sE).
    constructor.
    + exact GI9.
    + reflexivity.
    + reflexivity.
    + reflexivity.
    + reflexivity.
    + cbn [st_os set_st_os sE].
      set (D := fun q => pages (st_os s) q = None).
      assert (forall o, os_chg D (st_os s) o -> forall q, pages o q = None -> D q) as DN.
      { intros o Ho q Hq. unfold D. destruct (pages (st_os s) q) eqn:E; [|auto]. rewrite (oc_pages _ _ _ Ho) in Hq; [congruence|]. unfold D. congruence. }
      assert (forall o o', os_rel o o' -> os_chg D o o') as DR by (intros o o' [ra rb rc rd re rf]; constructor; intros; rewrite ?ra, ?rb, ?rc, ?rd, ?re; auto; lia || congruence).
      assert (os_chg D (st_os s) o2) as N02 by (eapply os_chg_trans; [exact N1|apply DR, O12]).
      assert (os_chg D (st_os s) o3) as N03 by (eapply os_chg_trans; [exact N02|eapply os_chg_mono; [|exact N3]; apply DN, N02]).
      assert (forall q, in_pages base (sizeof_allocator_state g) q = true -> D q) as DB by (intros q Hq; apply (DN o2 N02), (B4 q (SB3 q Hq))).
      assert (os_chg D (st_os s) o4) as N04 by (eapply os_chg_trans; [exact N03|apply os_in_chg, os_in_protected; intros q Hq; apply DB, SB1, Hq]).
      assert (os_chg D (st_os s) o5) as N05 by (eapply os_chg_trans; [exact N04|apply DR, O5]).
      assert (os_chg D (st_os s) o6) as N06 by (rewrite E6; eapply os_chg_trans; [exact N05|apply os_in_chg, os_in_protected; intros q Hq; apply DB, SB2, Hq]).
      assert (os_chg D (st_os s) o7) as N07 by (rewrite E7; eapply os_chg_trans; [exact N06|apply os_in_chg, os_in_mapped; intros q Hq; apply (DN o6 N06), S6, Hq]).
      assert (os_chg D (st_os s) o8) as N08 by (eapply os_chg_trans; [exact N07|apply DR, O8]).
      eapply os_chg_trans; [exact N08|]. eapply os_chg_mono; [|exact C9]. intros q Hq. cbn in Hq. apply (R4 q Hq).
    + intros a k i j H. cbn [st_cls set_st_os sE]. apply (class0_used g base start a k _ i j (CC a k H)).
    + intros a k H. cbn [st_cls set_st_os sE]. destruct (CC a k H) as (gap & d1 & d2 & rng & _ & _ & _ & _ & _ & ->). eexists _, _, _, _, _. reflexivity.
    + constructor.
      * intros a k i j H _ Hg. cbn [st_cls set_st_os sE] in Hg. apply granted_used in Hg. rewrite (class0_used g base start a k _ i j (CC a k H)) in Hg. discriminate.
      * intros _ a k i j y H _ Hi Hj _ Hy. change (st_os (set_st_os o9 sE)) with o9.
        destruct (slot_region g (set_st_os o9 sE) (no_regs b) GI9 a k i j H Hj Hi) as [Y1 Y2]. pose proof (canary_le g).
        destruct (class_region_lo g (set_st_os o9 sE) (no_regs b) [] GI9 a k y H) as [Y3 Y4]; [lia|].
        pose proof (class_lo_in g (set_st_os o9 sE) a k U H) as [Y5 Y6]. cbn [st_start set_st_os sE] in Y5, Y6.
        assert (in_pages start (slab_region_size g) (page_of y) = true) as IY.
        { apply (slab_region_span g (set_st_os o9 sE) (no_regs b) [] GI9). unfold in_slab_region. cbn [st_end st_start set_st_os sE]. lia. }
        rewrite (oc_mem _ _ _ C9); [rewrite M86, IY; reflexivity|]. cbn [rflight fl_in]. destruct (region_span rr (page_of y)) eqn:E; [|discriminate]. rewrite (D24 _ E) in IY. discriminate.
Qed.
