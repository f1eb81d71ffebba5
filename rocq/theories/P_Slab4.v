(** Size class: a new slab, and the specification of allocate_small. *)
From Coq Require Import String ZArith List Bool Lia ZifyBool.
From Verif Require Import M_Base M_Config M_SizeClass M_Libdivide M_OS M_Random M_Slab
  P_Base P_Count P_SizeClass P_Libdivide P_Random P_Bitmap P_Bitmap2 P_OS P_Links P_Slab1 P_Slab2 P_Slab3.
Import ListNotations.
Open Scope Z_scope.
Ltac Zify.zify_post_hook ::= idtac.

(** pages an operation on the class may touch *)
Definition cdom (g : config) (c : size_class) (q : Z) : Prop :=
  in_class g c q \/ in_pages (c_info c) (sizeof_slab_info_mapping g) q = true.
Lemma cdom_ext g c c' q : c_start c' = c_start c -> c_info c' = c_info c -> cdom g c' q <-> cdom g c q.
Proof. unfold cdom, in_class. intros -> ->. tauto. Qed.

Section P4.
Context (g : config) (k : Z).
Local Notation n := (get_slots g k).
Local Notation sz := (slot_size g k).
Local Notation b := (slab_size_of g k).
Local Notation GI := (GUARD_SLABS_INTERVAL g).

Lemma sizeof_bounds : 56 <= sizeof_slab_metadata g <= 96.
Proof. unfold sizeof_slab_metadata, canary_size. destruct (SLAB_CANARY g), (SLAB_QUARANTINE g); lia. Qed.
Lemma metadata_fits c m : geom g k c -> 0 <= m <= get_metadata_max g b -> 0 <= m * sizeof_slab_metadata g <= sizeof_slab_info_mapping g.
Proof.
  intros G Hm. pose proof sizeof_bounds. pose proof (ucfg_of g (ge_u _ _ _ G)) as []. pose proof (class_facts_all g k (ge_k _ _ _ G)) as [].
  unfold sizeof_slab_info_mapping, MAX_METADATA_MAX, get_metadata_max in *.
  assert (CLASS_REGION_SIZE g / b <= CLASS_REGION_SIZE g / PAGE_SIZE) by (apply Z.div_le_compat_l; unfold PAGE_SIZE; lia).
  assert (0 <= CLASS_REGION_SIZE g / PAGE_SIZE <= 268435456).
  { split; [apply Z.div_pos; unfold PAGE_SIZE; lia|]. apply Z.div_le_upper_bound; unfold PAGE_SIZE; lia. }
  assert (m * sizeof_slab_metadata g <= CLASS_REGION_SIZE g / PAGE_SIZE * sizeof_slab_metadata g) by nia.
  rewrite page_align_small.
  - pose proof (Z.div_mod (CLASS_REGION_SIZE g / PAGE_SIZE * sizeof_slab_metadata g + 4095) 4096 ltac:(lia)).
    pose proof (Z.mod_pos_bound (CLASS_REGION_SIZE g / PAGE_SIZE * sizeof_slab_metadata g + 4095) 4096 ltac:(lia)). lia.
  - change (2 ^ 64) with 18446744073709551616. nia.
Qed.

(** metadata records become accessible *)
Definition new_slab (c : size_class) (alloc : Z) : size_class :=
  let c1 := set_c_munguarded (w64 (c_munguarded c + 1)) (set_c_mcount (w64 (c_mcount c + 1)) (set_c_mallocated alloc c)) in
  if GI <=? c_munguarded c1 then set_c_munguarded 0 (set_c_mcount (w64 (c_mcount c1 + 1)) c1) else c1.

Lemma cinvX_mallocated o c P E F X L a : cinvX g k o c P E F X L -> c_mallocated c <= a <= get_metadata_max g b ->
  Z.min 42 (get_metadata_max g b) <= a -> cinvX g k o (set_c_mallocated a c) P E F X L.
Proof.
  intros I Ha Hm. pose proof I as [G Me Sl Li Ma Qu Pg Et Rn Fq]. constructor; auto; try fr.
  - destruct Me. constructor; cbn; auto; try lia.
  - eapply linked_ext; [..|exact Li]; reflexivity.
  - eapply matched_ext; [..|exact Ma]; reflexivity.
  - eapply pages_ext; [..|exact Pg]; auto; reflexivity.
Qed.

Lemma cinvX_new o o' c P E F L a : cinvX g k o c P E F None L -> c_mallocated c <= a <= get_metadata_max g b ->
  Z.min 42 (get_metadata_max g b) <= a -> c_mcount c < a ->
  (if k =? 0 then forall q, in_class g c q -> pages o' q = pages o q
   else forall q, in_class g c q -> pages o' q = if in_pages (slabp g k c (c_mcount c)) b q then Some PRW else pages o q) ->
  (forall x, mem o' x = mem o x) -> (forall q, pages o q <> None -> pages o' q <> None) ->
  let c' := new_slab c a in let i := c_mcount c in
  cinvX g k o' c' P E F (Some i) L /\ csame g k c c' /\ sstats c c' /\ (forall i' j', used c' i' j' = used c i' j') /\ cntof c' i = 0 /\
  nact g c' F = nact g c F + 1 /\ c_slabs c' = c_slabs c /\ c_partial c' = c_partial c /\ 0 <= i < c_mallocated c'.
Proof.
  intros I Ha Hmin Hlt Hp Hm Hmap c' i. pose proof I as [G Me Sl Li Ma Qu Pg Et Rn Fq]. pose proof Me as [].
  pose proof (ucfg_of g (ge_u _ _ _ G)) as []. pose proof (meta_max_bounds g k c G) as [[Kb1 Kb2] _].
  change (2 ^ 28) with 268435456 in Kb2. change (2 ^ 31) with 2147483648 in *.
  assert (w64 (c_munguarded c + 1) = c_munguarded c + 1) as W1 by (apply w64_small; change (2 ^ 64) with 18446744073709551616; lia).
  assert (w64 (c_mcount c + 1) = c_mcount c + 1) as W2 by (apply w64_small; change (2 ^ 64) with 18446744073709551616; lia).
  assert (w64 (c_mcount c + 1 + 1) = c_mcount c + 2) as W3 by (rewrite w64_small; [lia|]; change (2 ^ 64) with 18446744073709551616; lia).
  assert (c_mallocated c' = a /\ c_mcount c' = (if GI <=? c_munguarded c + 1 then c_mcount c + 2 else c_mcount c + 1) /\
     c_munguarded c' = (if GI <=? c_munguarded c + 1 then 0 else c_munguarded c + 1)) as (M1 & M2 & M3).
  { unfold c', new_slab. cbn. rewrite W1. destruct (GI <=? c_munguarded c + 1); cbn; rewrite ?W1, W2, ?W3; auto. }
  assert (c_partial c' = c_partial c /\ c_empty c' = c_empty c /\ c_fhead c' = c_fhead c /\ c_ftail c' = c_ftail c /\ c_fq c' = c_fq c
     /\ c_start c' = c_start c /\ c_info c' = c_info c /\ c_size_div c' = c_size_div c /\ c_slab_div c' = c_slab_div c /\ c_qrandom c' = c_qrandom c
     /\ c_qqueue c' = c_qqueue c /\ c_qqidx c' = c_qqidx c 
     /\ c_rng c' = c_rng c /\ c_empty_total c' = c_empty_total c /\ c_nmalloc c' = c_nmalloc c /\ c_ndalloc c' = c_ndalloc c /\ c_allocated c' = c_allocated c
     /\ c_slab_allocated c' = c_slab_allocated c /\ c_slabs c' = c_slabs c) as EQ.
  { unfold c', new_slab. cbn. rewrite W1. destruct (GI <=? c_munguarded c + 1); repeat split. }
  destruct EQ as (R2 & R3 & R4 & R5 & R6 & R7 & R8 & R9 & R10 & R11 & R12 & R13 & R17 & R18 & R19 & R20 & R21 & R22 & ES).
  clearbody c'.
  assert (forall x, nxt c' x = nxt c x) as En by (intros; unfold nxt; now rewrite ES).
  assert (forall x, prv c' x = prv c x) as Ep by (intros; unfold prv; now rewrite ES).
  assert (forall x, cntof c' x = cntof c x) as Ec by (intros; unfold cntof; now rewrite ES).
  assert (forall x y, quar c' x y = quar c x y) as Eq by (intros; unfold quar; now rewrite ES).
  assert (forall x y, used c' x y = used c x y) as Eu by (intros; unfold used; now rewrite ES).
  assert (Hi : i = c_mcount c) by reflexivity. clearbody i.
  destruct Ma.
  assert (cntof c i = 0) as C0.
  { pose proof (slab_ok_0 g k c i Sl). destruct (Z.eq_dec (cntof c i) 0); [auto|]. destruct (ma_s i) as [? _]; [lia|lia]. }
  pose proof (Z.div_mod (c_mcount c) (GI + 1) ltac:(lia)) as DM. rewrite me_mod in DM.
  set (q0 := c_mcount c / (GI + 1)) in *.
  assert (forall x, is_slab g c' x <-> is_slab g c x \/ x = i) as Isl.
  { intros x. unfold is_slab. rewrite M2. destruct (Z.leb_spec GI (c_munguarded c + 1)).
    - split.
      + intros [H1 H2]. destruct (Z.eq_dec x i); [auto|]. left. split; [|auto].
        destruct (Z.eq_dec x (c_mcount c + 1)) as [->|]; [|lia]. exfalso. apply H2.
        symmetry. apply (Z.mod_unique _ _ q0); lia.
      + intros [[H1 H2]| ->]; [split; [lia|auto]|]. split; [lia|]. rewrite Hi, me_mod. lia.
    - split.
      + intros [H1 H2]. destruct (Z.eq_dec x i); [auto|]. left. split; [lia|auto].
      + intros [[H1 H2]| ->]; [split; [lia|auto]|]. split; [lia|]. rewrite Hi, me_mod. lia. }
  assert (~ is_slab g c i) as Nsl by (intros [? _]; lia).
  assert (NE : ~ In i (E ++ F ++ somes (c_fq c))).
  { intros Hx. apply ma_0 in Hx; [|discriminate]. tauto. }
  assert (nslabs g c' = nslabs g c + 1) as Nsl1.
  { unfold nslabs. rewrite M2. fold q0. destruct (Z.leb_spec GI (c_munguarded c + 1)).
    - replace ((c_mcount c + 2) / (GI + 1)) with (q0 + 1); [lia|]. apply (Z.div_unique _ _ _ 0); lia.
    - replace ((c_mcount c + 1) / (GI + 1)) with q0; [lia|]. apply (Z.div_unique _ _ _ (c_munguarded c + 1)); lia. }
  split; [|split; [|split; [repeat split; congruence|split; [auto|split; [rewrite Ec; auto|split; [unfold nact; rewrite Nsl1, R6; lia|split; [auto|split; [auto|lia]]]]]]]].
  2:{ constructor; auto; [intros x _; unfold can; now rewrite ES|intros x; rewrite Ec; lia]. }
  constructor; auto; try congruence.
  - eapply geom_ext; [..|exact G]; congruence.
  - constructor; rewrite ?M1, ?M2, ?M3.
    + lia.
    + right. lia.
    + destruct (Z.leb_spec GI (c_munguarded c + 1)); lia.
    + destruct (Z.leb_spec GI (c_munguarded c + 1)); lia.
    + destruct (Z.leb_spec GI (c_munguarded c + 1)).
      * symmetry. apply (Z.mod_unique _ _ (q0 + 1)); lia.
      * symmetry. apply (Z.mod_unique _ _ q0); lia.
  - intros x. rewrite ES. auto.
  - eapply linked_ext; [..|exact Li]; auto.
  - constructor; rewrite ?R6.
    + intros x Hx. rewrite Ec. apply ma_P. discriminate.
    + intros x Hx. rewrite Ec, Isl, ma_0 by discriminate. intuition congruence.
    + intros x. rewrite Ec, Isl. auto.
    + intros x Hx. rewrite En, Ep. apply ma_new. rewrite M2 in Hx. destruct (GI <=? _); lia.
    + intros x Hx. injection Hx as <-. rewrite Isl. auto.
  - eapply quar_ext; [..|exact Qu]; congruence.
  - assert (0 <= i < get_metadata_max g b) as Hik by lia.
    assert (pages_ok g k o' c (fun x => active c E None x \/ x = i)) as Pg'.
    { pose proof Pg as [Pa Pn Pz Pm]. rewrite <- Hi in Hp.
      assert (forall x q, active c E None x -> in_slab g k c x q -> in_class g c q) as AC.
      { intros x q Hax Hq. eapply slab_class; [exact G| |exact Hq].
        assert (is_slab g c x) as Sx. { destruct Hax as [?|[?|?]]; [auto| |discriminate]. apply (ma_0 x); [discriminate|]. apply in_or_app; auto. }
        pose proof (slab_range g k o c _ _ _ _ _ x I Sx). lia. }
      assert (forall q, in_slab g k c i q -> in_class g c q) as ACi by (intros q Hq; eapply slab_class; [exact G|exact Hik|exact Hq]).
      assert (forall q, in_slab g k c i q -> pages o q = Some PNone) as PNi.
      { intros q Hq. apply Pn; [auto|]. intros x Hx Hxq. assert (x = i) by (eapply slabs_apart; [exact G|..]; eassumption). subst x.
        destruct Hx as [Hx|[Hx|Hx]]; [lia| |discriminate]. apply NE. apply in_or_app; auto. }
      revert Hp Pa. destruct (k =? 0) eqn:EK; intros Hp Pa.
      - constructor.
        + intros x q [Hx| ->] Hq; rewrite Hp, EK; eauto.
        + intros q Hq H. rewrite Hp by auto. apply Pn; auto.
        + intros x Hx. rewrite Hm, Hp by auto. auto.
        + auto.
      - constructor.
        + intros x q Hx Hq. assert (in_class g c q) as Cq by (destruct Hx as [Hx| ->]; eauto). rewrite Hp, EK by auto.
          destruct (in_pages (slabp g k c i) b q) eqn:Ei; [auto|]. destruct Hx as [Hx| ->]; [eauto|]. unfold in_slab in Hq. congruence.
        + intros q Hq H. rewrite Hp by auto. destruct (in_pages (slabp g k c i) b q) eqn:Ei; [elim (H i); auto|]. apply Pn; auto.
        + intros x Hx. rewrite Hm, Hp by auto. destruct (in_pages _ _ _); [discriminate|auto].
        + auto. }
    eapply pages_ext; [..|exact Pg']; auto. intros x. unfold active. rewrite Ec. intuition congruence.
Qed.

Lemma take_slot_wp o c P E F L i : cinvX g k o c P E F (Some i) L -> cntof c i < n ->
  wp (take_slot g n i) (mkCst o c)
    (fun j s' => 0 <= j < n /\ used c i j = false /\ exists o' c', s' = mkCst o' c' /\ os_rel o o' /\
       cinvX g k o' c' P E F (Some i) L /\ cntof c' i = cntof c i + 1 /\
       (forall i' j', 0 <= j' < 256 -> used c' i' j' = used c i' j' || ((i' =? i) && (j' =? j))) /\
       csame g k c c' /\ sstats c c' /\ nact g c' F = nact g c F /\ can c' i = can c i) rng_fault.
Proof.
  intros I Hc. pose proof I as [G Me Sl Li Ma Qu Pg Et Rn Fq]. pose proof (class_facts_all g k (ge_k _ _ _ G)) as [].
  destruct (ma_X _ _ _ _ _ _ _ Ma i eq_refl) as [Is _]. destruct (slab_range g k o c _ _ _ _ _ i I Is) as [Hi HiK].
  unfold take_slot. apply wp_bind. eapply wp_mono; [apply get_free_slot_ok; [exact Rn|exact Hi|auto|apply Sl|]| |auto].
  { cbn [cs_c]; apply zcount_not_full; [lia|]. unfold cntof in Hc. rewrite (so_cnt _ _ (Sl i)) in Hc. lia. }
  intros j s1 (Hj & Hu & o1 & r1 & -> & Rr & Os). cbn [cs_c cs_os] in *.
  pose proof (cinvX_rng g k o o1 c r1 _ _ _ _ _ Os Rr I) as I1.
  apply wp_bind. unfold set_used_slot. apply wp_bind. unfold chk_bitmap, in_bitmap.
  replace ((0 <=? j) && (j <? 256)) with true by lia. apply wp_ret. apply upd_md_wp; [exact Hi|]. cbn [cs_c cs_os]. apply wp_ret.
  split; [auto|]. split; [exact Hu|]. do 2 eexists. split; [reflexivity|]. split; [exact Os|].
  destruct (cinvX_take g k o1 (set_c_rng r1 c) P E F L i j I1 Hj Hu) as (I2 & C2 & U2 & Q2).
  split; [exact I2|]. split; [exact C2|]. split; [exact U2|]. split; [|split; [repeat split|split; [reflexivity|vw]]].
  constructor; auto; [vw|]. intros x. destruct (Z.eq_dec x i) as [->|]; [|vw].
  etransitivity; [|apply Z.eq_le_incl; symmetry; exact C2]. change (cntof (set_c_rng r1 c) i) with (cntof c i). lia.
Qed.

Lemma in_pages_sub a len A B q : A <= a -> a + len <= A + B -> in_pages a len q = true -> in_pages A B q = true.
Proof.
  rewrite !in_pages_spec. unfold page_of. intros H1 H2 [H3 H4].
  pose proof (Z.div_le_mono A a 4096 ltac:(lia) H1).
  pose proof (Z.div_le_mono (a + len + 4095) (A + B + 4095) 4096 ltac:(lia) ltac:(lia)). lia.
Qed.
Lemma slot_rw o c P E F X L i j a len : cinvX g k o c P E F X L -> active c E X i -> k <> 0 -> 0 <= j < n ->
  sptr g k c i j <= a -> a + len <= sptr g k c i j + sz -> pages_all is_rw o a len = true.
Proof.
  intros I Ha Hk Hj H1 H2. apply pages_all_spec. intros q Hq. pose proof (slot_in_slab g k c (ci_geom _ _ _ _ _ _ _ _ _ I) i j Hj).
  rewrite (pg_act _ _ _ _ _ (ci_pages _ _ _ _ _ _ _ _ _ I) i q Ha).
  - destruct (Z.eqb_spec k 0); [contradiction|reflexivity].
  - unfold in_slab. eapply in_pages_sub; [| |exact Hq]; lia.
Qed.
Lemma active_slab o c P E F X L i : cinvX g k o c P E F X L -> active c E X i -> is_slab g c i.
Proof.
  intros [] [H|[H|H]]; destruct ci_match.
  - auto.
  - destruct X as [x|]; [destruct (Z.eq_dec x i) as [->|]; [apply ma_X; auto|]|]; (apply (ma_0 i); [congruence|apply in_or_app; auto]).
  - apply ma_X. auto.
Qed.
Lemma sptr_bounds o c P E F X L i j : cinvX g k o c P E F X L -> is_slab g c i -> 0 <= j < n ->
  c_start c <= sptr g k c i j /\ sptr g k c i j + sz <= c_start c + CLASS_REGION_SIZE g.
Proof.
  intros I Is Hj. pose proof (ci_geom _ _ _ _ _ _ _ _ _ I) as G. pose proof (slab_range g k o c _ _ _ _ _ i I Is).
  pose proof (slot_in_slab g k c G i j Hj). pose proof (slab_in_region g k c G i ltac:(lia)). lia.
Qed.

(** memory after the canary of a new block has been written *)
Definition canary_os (p v : Z) (o : os) : os :=
  if SLAB_CANARY g && negb (k =? 0) then stored_os (p + sz - 8) v o else o.
Definition waf_fault (o : os) (p : Z) (f : fault) : Prop :=
  f = Fatal "detected write after free" /\ k <> 0 /\ WRITE_AFTER_FREE_CHECK g = true /\
  exists x, p <= x < p + sz - canary_size g /\ mem o x <> 0.
Lemma set_canary_wp o c P E F X L i j (Er : fault -> Prop) : cinvX g k o c P E F X L -> active c E X i -> k <> 0 -> 0 <= j < n ->
  wp (set_canary g i (sptr g k c i j) sz) (mkCst o c)
    (fun _ s' => s' = mkCst (canary_os (sptr g k c i j) (can c i) o) c) Er.
Proof.
  intros I Ha Hk Hj. pose proof (ci_geom _ _ _ _ _ _ _ _ _ I) as G. pose proof (class_facts_all g k (ge_k _ _ _ G)) as [].
  pose proof (active_slab _ _ _ _ _ _ _ _ I Ha) as Is.
  pose proof (sptr_bounds _ _ _ _ _ _ _ _ _ I Is Hj). pose proof (ge_start _ _ _ G). pose proof (ucfg_of g (ge_u _ _ _ G)) as [].
  destruct (slab_range g k o c _ _ _ _ _ i I Is) as [Hi HiK].
  unfold set_canary, canary_os, canary_size. destruct (SLAB_CANARY g); cbn [andb]; [|now apply wp_ret].
  replace (negb (k =? 0)) with true by lia.
  apply wp_bind, md_wp; [exact Hi|]. apply c_sys_wp. cbn [cs_os cs_c].
  rewrite w64_small by (change (2 ^ 64) with 18446744073709551616; change (2 ^ 47) with 140737488355328 in *; lia).
  apply store_u64_wp; [|reflexivity]. eapply slot_rw; try eassumption; lia.
Qed.
Lemma waf_wp o c P E F X L i j : cinvX g k o c P E F X L -> active c E X i -> k <> 0 -> 0 <= j < n ->
  wp (c_sys (write_after_free_check g (sptr g k c i j) (sz - canary_size g))) (mkCst o c)
    (fun _ s' => s' = mkCst o c /\ (WRITE_AFTER_FREE_CHECK g = true -> forall x, sptr g k c i j <= x < sptr g k c i j + sz - canary_size g -> mem o x = 0))
    (waf_fault o (sptr g k c i j)).
Proof.
  intros I Ha Hk Hj. pose proof (ci_geom _ _ _ _ _ _ _ _ _ I) as G. pose proof (class_facts_all g k (ge_k _ _ _ G)) as [].
  apply c_sys_wp. cbn [cs_os cs_c]. unfold write_after_free_check. destruct (WRITE_AFTER_FREE_CHECK g) eqn:W; cbn [negb].
  2:{ apply wp_ret. split; [auto|discriminate]. }
  assert ((sz - canary_size g + 7) / 8 * 8 = sz - canary_size g) as ->.
  { pose proof (Z.div_mod sz 16 ltac:(lia)) as D. rewrite cf_smod in D. unfold canary_size. destruct (SLAB_CANARY g).
    - rewrite <- (Z.div_unique (sz - 8 + 7) 8 (2 * (sz / 16) - 1) 7); lia.
    - rewrite <- (Z.div_unique (sz - 0 + 7) 8 (2 * (sz / 16)) 7); lia. }
  assert (0 <= canary_size g <= 8) by (unfold canary_size; destruct (SLAB_CANARY g); lia).
  apply wp_bind, load_bytes_wp; [apply rw_readable; eapply slot_rw; try eassumption; lia|].
  destruct (forallb _ _) eqn:Fb.
  - apply wp_ret. split; [auto|]. intros _ x Hx. rewrite forallb_forall in Fb.
    specialize (Fb (mem o x)). rewrite Z.eqb_eq in Fb. apply Fb. apply in_map. apply in_zrange. lia.
  - apply wp_fail. split; [reflexivity|]. split; [auto|]. split; [auto|].
    assert (exists x, In x (map (mem o) (zrange (sptr g k c i j) (sptr g k c i j + (sz - canary_size g)))) /\ (x =? 0) = false) as (y & Hy & Ny).
    { clear - Fb. induction (map _ _) as [|a l IH]; [discriminate|]. cbn in Fb. destruct (a =? 0) eqn:Ea; [|exists a; cbn; auto].
      destruct (IH Fb) as (x & Hx & Ex). exists x. cbn. auto. }
    apply in_map_iff in Hy. destruct Hy as (x & <- & Hx). apply in_zrange in Hx. exists x. split; lia.
Qed.
Lemma canary_os_pages p v o : pages (canary_os p v o) = pages o.
Proof. unfold canary_os. destruct (_ && _); reflexivity. Qed.
Lemma canary_os_mem p v o x : mem (canary_os p v o) x =
  if SLAB_CANARY g && negb (k =? 0) && ((p + sz - 8 <=? x) && (x <? p + sz)) then byte_of v (x - (p + sz - 8)) else mem o x.
Proof. unfold canary_os. destruct (SLAB_CANARY g && negb (k =? 0)); cbn; [|reflexivity]. replace (p + sz - 8 + 8) with (p + sz) by lia. reflexivity. Qed.
Lemma canary_os_inv o c P E F X L i j v : cinvX g k o c P E F X L -> active c E X i -> 0 <= j < n ->
  cinvX g k (canary_os (sptr g k c i j) v o) c P E F X L.
Proof.
  intros I Ha Hj. pose proof (ci_geom _ _ _ _ _ _ _ _ _ I) as G. pose proof (class_facts_all g k (ge_k _ _ _ G)) as [].
  eapply cinvX_os; [| |exact I].
  - intros q. now rewrite canary_os_pages.
  - intros x. rewrite canary_os_mem. destruct (SLAB_CANARY g && negb (k =? 0) && _) eqn:Ec; [|auto].
    right; right. assert (k <> 0) as Hk by lia.
    assert (pages_all is_rw o (sptr g k c i j) sz = true) as R by (eapply slot_rw; try eassumption; lia).
    rewrite pages_all_spec in R. specialize (R (page_of x)). rewrite in_pages_addr in R by lia. specialize (R eq_refl). intros Eq. rewrite Eq in R. discriminate.
Qed.
Lemma canary_os_in o c P E F X L i j v (D : Z -> Prop) : cinvX g k o c P E F X L -> is_slab g c i -> 0 <= j < n -> (forall q, in_class g c q -> D q) ->
  os_in D o (canary_os (sptr g k c i j) v o).
Proof.
  intros I Is Hj HD. pose proof (ci_geom _ _ _ _ _ _ _ _ _ I) as G. pose proof (class_facts_all g k (ge_k _ _ _ G)) as [].
  unfold canary_os. destruct (_ && _); [|apply os_in_refl]. constructor; cbn; auto.
  intros x Hx. destruct ((_ <=? x) && _) eqn:Ex; [|auto]. elim Hx. apply HD. apply (in_class_addr g k c G).
  pose proof (sptr_bounds _ _ _ _ _ _ _ _ _ I Is Hj). lia.
Qed.
End P4.
