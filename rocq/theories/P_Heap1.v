(** The whole heap: ownership of pages and the global invariant. *)
From Coq Require Import String ZArith List Bool Lia ZifyBool Permutation.
From Verif Require Import M_Base M_Config M_SizeClass M_Libdivide M_OS M_Random M_Slab M_Region M_Api
  P_Base P_Count P_SizeClass P_Libdivide P_Random P_Bitmap P_Bitmap2 P_OS P_Links P_Slab1 P_Slab2 P_Slab3 P_Slab4 P_Region P_Region2.
Import ListNotations.
Open Scope Z_scope.
Ltac Zify.zify_post_hook ::= idtac.

(** ** page ownership *)
Definition hit (f : Z -> bool) (q : Z) : Z := if f q then 1 else 0.
Fixpoint cover (l : list (Z -> bool)) (q : Z) : Z := match l with [] => 0 | f :: t => hit f q + cover t q end.
Lemma hit_range f q : 0 <= hit f q <= 1. Proof. unfold hit. destruct (f q); lia. Qed.
Lemma cover_nonneg l q : 0 <= cover l q. Proof. induction l; cbn; [lia|]. pose proof (hit_range a q). lia. Qed.
Lemma cover_app l1 l2 q : cover (l1 ++ l2) q = cover l1 q + cover l2 q. Proof. induction l1; cbn; lia. Qed.
Lemma cover_In l f q : In f l -> f q = true -> 1 <= cover l q.
Proof. induction l as [|a l IH]; cbn; [tauto|]. intros [->|H] Hf; [unfold hit; rewrite Hf; pose proof (cover_nonneg l q); lia|]. specialize (IH H Hf). pose proof (hit_range a q). lia. Qed.
Lemma cover_perm l1 l2 q : Permutation l1 l2 -> cover l1 q = cover l2 q. Proof. induction 1; cbn; lia. Qed.
Lemma cover_0 l q : cover l q = 0 -> forall f, In f l -> f q = false.
Proof. intros H f Hf. destruct (f q) eqn:E; [|auto]. pose proof (cover_In l f q Hf E). lia. Qed.
Lemma cover_pos l q : cover l q <> 0 -> exists f, In f l /\ f q = true.
Proof.
  induction l as [|f l IH]; cbn; intros H; [lia|]. unfold hit in H. destruct (f q) eqn:E; [exists f; auto|].
  destruct IH as (f' & A & B); [lia|]. exists f'. auto.
Qed.

(** pages in the hands of a running call, with their protection *)
Record fl : Type := mkFl { fl_in : Z -> bool; fl_prot : Z -> prot }.

(** ** large blocks *)
Definition region_span (r : region) : Z -> bool := in_pages (rg_p r - rg_guard r) (rg_size r + 2 * rg_guard r).
Record reg_ok (o : os) (r : region) : Prop := {
  rk_p : rg_p r mod 4096 = 0;
  rk_g : rg_guard r mod 4096 = 0 /\ 4096 <= rg_guard r;
  rk_s : 0 < rg_size r;
  rk_lo : 4096 <= rg_p r - rg_guard r;
  rk_hi : rg_p r + rg_size r + rg_guard r + 4095 <= 2 ^ 47;
  rk_rw : forall q, in_pages (rg_p r) (rg_size r) q = true -> pages o q = Some PRW;
  rk_no : forall q, region_span r q = true -> in_pages (rg_p r) (rg_size r) q = false -> pages o q = Some PNone
}.
Definition lmap (l : list region) : rmap := fun p =>
  match find (fun r => rg_p r =? p) l with Some r => Some (rg_size r, rg_guard r) | None => None end.
(** the entries of the table: [rl_own] with their pages, [rl_open] those whose pages are
    in the hands of a running call *)
(** pages mapped before, and how large the unknown guards of the allocator's own data may be *)
Record ground : Type := mkGround { gr_page :> Z -> bool; gr_slack : Z }.
Record regs : Type := mkRegs { rl_own : list region; rl_open : list region;
  rl_strict : bool; (* quarantined pages are known to be out of reach *)
  rl_base : ground (* pages the rest of the process had mapped *) }.
Definition rl_all (LL : regs) : list region := rl_own LL ++ rl_open LL.
Definition qspans (r : ralloc) : list (Z -> bool) :=
  map (fun e => in_pages (fst e) (snd e)) (filter (fun e => negb (fst e =? 0)) (ra_qrandom r ++ ra_qqueue r)).
Record rq_ok (g : config) (r : ralloc) : Prop := {
  rq_rl : zlen (ra_qrandom r) = REGION_QUARANTINE_RANDOM_LENGTH g;
  rq_ql : zlen (ra_qqueue r) = REGION_QUARANTINE_QUEUE_LENGTH g;
  rq_i : 0 <= ra_qqidx r /\ (0 < REGION_QUARANTINE_QUEUE_LENGTH g -> ra_qqidx r < REGION_QUARANTINE_QUEUE_LENGTH g);
  rq_rng : rng_ok (ra_rng r)
}.

(** ** fixed parts *)
Definition meta_span (g : config) (s : state) : Z -> bool := in_pages (st_base s) (sizeof_allocator_state g).
Definition slab_span (g : config) (s : state) : Z -> bool := in_pages (st_start s) (slab_region_size g).
Definition class_lo (g : config) (s : state) (a k : Z) : Z := st_start s + ARENA_SIZE g * a + REAL_CLASS_REGION_SIZE g * k.
Record class_place (g : config) (s : state) (a k : Z) (c : size_class) : Prop := {
  cp_lo : class_lo g s a k + 4096 <= c_start c;
  cp_hi : c_start c + CLASS_REGION_SIZE g + 4096 <= class_lo g s a k + REAL_CLASS_REGION_SIZE g;
  cp_info : c_info c = slab_info_at g (st_base s) a k
}.
Definition class_in (g : config) (a k : Z) : Prop := 0 <= a < N_ARENA g /\ 0 <= k < N_SIZE_CLASSES g.
Record placed (g : config) (s : state) : Prop := {
  pl_base : 4096 <= st_base s /\ st_base s mod 4096 = 0 /\ st_base s + sizeof_allocator_state g + 4095 <= 2 ^ 47;
  pl_start : 4096 <= st_start s /\ st_start s mod 4096 = 0 /\ st_start s + slab_region_size g + 4095 <= 2 ^ 47;
  pl_end : st_end s = st_start s + slab_region_size g;
  pl_tab : forall b, ra_addr (st_ra s) b = st_base s + if b : bool then OFF_REGIONS_B g else OFF_REGIONS_A g
}.
Definition fixed (g : config) (s : state) : list (Z -> bool) := [meta_span g s; slab_span g s].
Definition spans (g : config) (s : state) (LL : regs) (X : list fl) : list (Z -> bool) :=
  fixed g s ++ map region_span (rl_own LL) ++ qspans (st_ra s) ++ map fl_in X.

(** the kernel has not answered ENOMEM so far *)
Definition unrefused (o : os) : Prop := forall n, (n < sysn o)%nat -> sa_errno (sysq o n) <> ENOMEM.
Definition onward (o o' : os) : Prop := sysq o' = sysq o /\ (sysn o <= sysn o')%nat.
Lemma unrefused_back o o' : onward o o' -> unrefused o' -> unrefused o.
Proof. intros [E L] Q n Hn. rewrite <- E. apply Q. lia. Qed.
Lemma onward_refl o : onward o o. Proof. split; auto. Qed.
Lemma onward_trans a b c : onward a b -> onward b c -> onward a c.
Proof. intros [E1 L1] [E2 L2]. split; [congruence|lia]. Qed.
Lemma onward_in D o o' : os_in D o o' -> onward o o'. Proof. intros []. split; auto. Qed.

(** the allocator's own data with its guards *)
Definition halo (g : config) (s : state) (gd : Z) (q : Z) : bool := in_pages (st_base s - gd) (sizeof_allocator_state g + 2 * gd) q.
Record ginv (g : config) (s : state) (LL : regs) (X : list fl) : Prop := {
  gi_u : usable_config g = true;
  gi_pl : placed g s;
  gi_cls : forall a k, class_in g a k -> cinv g k (st_os s) (st_cls s a k) /\ class_place g s a k (st_cls s a k);
  gi_ra : ra_ok g (st_ra s) (lmap (rl_all LL));
  gi_rq : rq_ok g (st_ra s);
  gi_nd : NoDup (map rg_p (rl_all LL));
  gi_reg : forall r, In r (rl_own LL) -> reg_ok (st_os s) r;
  gi_fl : forall f q, In f X -> fl_in f q = true -> pages (st_os s) q = Some (fl_prot f q);
  gi_apart : forall q, cover (spans g s LL X) q <= 1;
  gi_map : forall f q, In f (spans g s LL X) -> f q = true -> pages (st_os s) q <> None;
  gi_gap : forall q, slab_span g s q = true -> (forall a k, class_in g a k -> ~ in_class g (st_cls s a k) q) -> pages (st_os s) q = Some PNone;
  gi_cold : rl_strict LL = true -> unrefused (st_os s) -> forall f q, In f (qspans (st_ra s)) -> f q = true -> pages (st_os s) q = Some PNone;
  gi_tight : rl_strict LL = true -> unrefused (st_os s) -> exists gd, (0 <= gd <= gr_slack (rl_base LL) /\ gd mod 4096 = 0) /\
    forall q, pages (st_os s) q <> None -> rl_base LL q = true \/ halo g s gd q = true \/ cover (spans g s LL X) q <> 0
}.

(** ** sizes *)
Record gfacts (g : config) : Prop := {
  gf_n : 1 <= N_SIZE_CLASSES g <= 49;
  gf_crs : 1048576 <= CLASS_REGION_SIZE g <= 1099511627776;
  gf_ar : 1 <= N_ARENA g <= 256;
  gf_rb : 4096 <= regions_bytes g <= 2 ^ 30 /\ regions_bytes g mod 4096 = 0;
  gf_im : 4096 <= sizeof_slab_info_mapping g <= 2 ^ 36 /\ sizeof_slab_info_mapping g mod 4096 = 0;
  gf_off : OFF_REGIONS_A g mod 4096 = 0 /\ 4096 <= OFF_REGIONS_A g <= 2 ^ 48;
  gf_crsm : CLASS_REGION_SIZE g mod 4096 = 0
}.
Lemma page_align_facts x : 0 <= x <= 2 ^ 40 -> x <= page_align x < x + 4096 /\ page_align x mod 4096 = 0.
Proof.
  intros H. change (2 ^ 40) with 1099511627776 in H. rewrite page_align_small by lia.
  pose proof (Z.div_mod (x + 4095) 4096 ltac:(lia)). pose proof (Z.mod_pos_bound (x + 4095) 4096 ltac:(lia)). split; [lia|]. apply Z.mod_mul. lia.
Qed.
Lemma gfacts_of g : usable_config g = true -> gfacts g.
Proof.
  intros U. pose proof (ucfg_of g U) as []. pose proof (max_table_bounds g U) as (B1 & B2 & B3).
  assert (1 <= N_SIZE_CLASSES g <= 49) by (unfold N_SIZE_CLASSES, size_classes; destruct (EXTENDED_SIZE_CLASSES g); vm_compute; split; discriminate).
  constructor; auto.
  - split; [auto|]. unfold regions_bytes. apply page_align_facts. unfold sizeof_region_metadata. change (2 ^ 40) with 1099511627776. lia.
  - unfold sizeof_slab_info_mapping, MAX_METADATA_MAX, PAGE_SIZE.
    assert (256 <= CLASS_REGION_SIZE g / 4096 <= 268435456) as H1.
    { split; [apply Z.div_le_lower_bound|apply Z.div_le_upper_bound]; lia. }
    assert (56 <= sizeof_slab_metadata g <= 96) as H2.
    { unfold sizeof_slab_metadata, canary_size. destruct (SLAB_CANARY g), (SLAB_QUARANTINE g); lia. }
    set (y := CLASS_REGION_SIZE g / 4096 * sizeof_slab_metadata g) in *. assert (14336 <= y <= 25769803776) by (unfold y; nia).
    destruct (page_align_facts y) as [P1 P2]; [change (2 ^ 40) with 1099511627776; lia|]. change (2 ^ 36) with 68719476736. split; [lia|auto].
Qed.
Lemma off_b g : OFF_REGIONS_B g = OFF_REGIONS_A g + regions_bytes g. Proof. reflexivity. Qed.
Lemma off_i g : OFF_SLAB_INFO g = OFF_REGIONS_A g + 2 * regions_bytes g. Proof. unfold OFF_SLAB_INFO, OFF_REGIONS_B. lia. Qed.

(** two different classes have different region numbers *)
Lemma class_index N a k a' k' : 0 <= k < N -> 0 <= k' < N -> (a <> a' \/ k <> k') -> a * N + k <> a' * N + k'.
Proof. intros Hk Hk' D E. assert (a = a') by nia. subst. lia. Qed.
Lemma class_lo_eq g s a k : class_lo g s a k = st_start s + REAL_CLASS_REGION_SIZE g * (a * N_SIZE_CLASSES g + k).
Proof. unfold class_lo, ARENA_SIZE. ring. Qed.
Lemma mul_gap x y z : 0 <= z -> x < y -> z * x + z <= z * y. Proof. nia. Qed.
Lemma class_lo_apart g s a k a' k' : usable_config g = true -> class_in g a k -> class_in g a' k' -> (a <> a' \/ k <> k') ->
  class_lo g s a k + REAL_CLASS_REGION_SIZE g <= class_lo g s a' k' \/ class_lo g s a' k' + REAL_CLASS_REGION_SIZE g <= class_lo g s a k.
Proof.
  intros U [Ha Hk] [Ha' Hk'] D. rewrite !class_lo_eq. pose proof (class_index _ a k a' k' Hk Hk' D) as NE.
  pose proof (gfacts_of g U) as []. set (R := REAL_CLASS_REGION_SIZE g). assert (0 <= R) by (unfold R, REAL_CLASS_REGION_SIZE; lia).
  set (x := a * _ + k) in *. set (y := a' * _ + k') in *. destruct (Z.lt_total x y) as [L|[L|L]]; [left|contradiction|right].
  - pose proof (mul_gap x y R ltac:(lia) L). lia.
  - pose proof (mul_gap y x R ltac:(lia) L). lia.
Qed.
Lemma class_lo_in g s a k : usable_config g = true -> class_in g a k ->
  st_start s <= class_lo g s a k /\ class_lo g s a k + REAL_CLASS_REGION_SIZE g <= st_start s + slab_region_size g.
Proof.
  intros U [Ha Hk]. rewrite class_lo_eq. unfold slab_region_size, ARENA_SIZE.
  pose proof (gfacts_of g U) as []. set (R := REAL_CLASS_REGION_SIZE g). assert (0 <= R) by (unfold R, REAL_CLASS_REGION_SIZE; lia).
  assert (0 <= a * N_SIZE_CLASSES g + k < N_SIZE_CLASSES g * N_ARENA g) as B by nia.
  set (x := a * _ + k) in *. set (y := N_SIZE_CLASSES g * N_ARENA g) in *.
  pose proof (mul_gap x y R ltac:(lia) ltac:(lia)). split; [nia|]. replace (R * N_SIZE_CLASSES g * N_ARENA g) with (R * y) by (unfold y; ring). lia.
Qed.
Lemma in_pages_sub a l a' l' q : a' <= a -> a + l <= a' + l' -> in_pages a l q = true -> in_pages a' l' q = true.
Proof.
  intros H1 H2. rewrite !in_pages_spec. unfold page_of. intros [A B]. split.
  - etransitivity; [|exact A]. apply Z.div_le_mono; lia.
  - eapply Z.lt_le_trans; [exact B|]. apply Z.div_le_mono; lia.
Qed.
Lemma in_pages_apart a l a' l' q : a' mod 4096 = 0 -> a + l <= a' -> in_pages a l q = true -> in_pages a' l' q = false.
Proof.
  intros M H1 H. apply in_pages_spec in H. destruct (in_pages a' l' q) eqn:E; [|auto]. apply in_pages_spec in E. exfalso. unfold page_of in *.
  assert ((a + l + 4095) / 4096 <= (a' + 4095) / 4096) as D by (apply Z.div_le_mono; lia).
  assert ((a' + 4095) / 4096 = a' / 4096).
  { pose proof (Z.div_mod a' 4096 ltac:(lia)). rewrite M in *. symmetry. apply Z.div_unique with (r := 4095); lia. }
  lia.
Qed.
Section Place.
Context (g : config) (s : state) (U : usable_config g = true) (PL : placed g s).
Lemma class_in_slab a k q : class_in g a k -> class_place g s a k (st_cls s a k) -> in_class g (st_cls s a k) q -> slab_span g s q = true.
Proof.
  intros C []. pose proof (class_lo_in g s a k U C) as B. unfold in_class, slab_span. apply in_pages_sub; lia.
Qed.
Lemma class_disjoint a k a' k' q : class_in g a k -> class_in g a' k' -> class_place g s a k (st_cls s a k) -> class_place g s a' k' (st_cls s a' k') ->
  (a <> a' \/ k <> k') -> (forall k a, class_in g a k -> geom g k (st_cls s a k)) ->
  in_class g (st_cls s a k) q -> ~ in_class g (st_cls s a' k') q.
Proof.
  intros C C' [] [] D G. unfold in_class. intros H H'. 
  destruct (ge_start _ _ _ (G k a C)) as (_ & M & _). destruct (ge_start _ _ _ (G k' a' C')) as (_ & M' & _).
  destruct (class_lo_apart g s a k a' k' U C C' D) as [L|L].
  - pose proof (in_pages_apart (c_start (st_cls s a k)) (CLASS_REGION_SIZE g) (c_start (st_cls s a' k')) (CLASS_REGION_SIZE g) q M' ltac:(clear H H'; lia) H). congruence.
  - pose proof (in_pages_apart (c_start (st_cls s a' k')) (CLASS_REGION_SIZE g) (c_start (st_cls s a k)) (CLASS_REGION_SIZE g) q M ltac:(clear H H'; lia) H'). congruence.
Qed.
Lemma info_in_meta a k q : class_in g a k -> in_pages (slab_info_at g (st_base s) a k) (sizeof_slab_info_mapping g) q = true -> meta_span g s q = true.
Proof.
  intros [Ha Hk]. unfold meta_span, slab_info_at. pose proof (gfacts_of g U) as []. rewrite off_i in *. apply in_pages_sub.
  - assert (0 <= (a * N_SIZE_CLASSES g + k) * sizeof_slab_info_mapping g) by nia. lia.
  - unfold sizeof_allocator_state. rewrite off_i.
    assert (a * N_SIZE_CLASSES g + k < N_ARENA g * N_SIZE_CLASSES g) as B by nia.
    pose proof (mul_gap _ _ (sizeof_slab_info_mapping g) ltac:(lia) B). lia.
Qed.
Lemma table_in_meta q : table_pages g (st_ra s) q -> meta_span g s q = true.
Proof.
  destruct PL. pose proof (gfacts_of g U) as []. assert (0 <= N_ARENA g * N_SIZE_CLASSES g * sizeof_slab_info_mapping g) by nia.
  unfold table_pages, meta_span. rewrite !pl_tab0, off_b. unfold sizeof_allocator_state. rewrite off_i. intros [H1|H1]; revert H1; apply in_pages_sub; lia.
Qed.
End Place.

(** ** frames *)
Lemma pages_frame g k o o' c (A : Z -> Prop) : (forall q, in_class g c q -> pages o' q = pages o q) ->
  (forall x, in_class g c (page_of x) -> mem o' x = mem o x \/ mem o' x = 0 \/ pages o (page_of x) <> Some PNone) ->
  (forall q, pages o q <> None -> pages o' q <> None) -> (forall i q, A i -> in_slab g k c i q -> in_class g c q) ->
  pages_ok g k o c A -> pages_ok g k o' c A.
Proof.
  intros E1 E2 E3 E4 []. constructor.
  - intros i q Ha Hq. rewrite E1 by eauto. eauto.
  - intros q Hq Hn. rewrite E1 by auto. auto.
  - intros x Hx Hn. rewrite E1 in Hn by auto. destruct (E2 x Hx) as [->|[->|Hp]]; auto. contradiction.
  - intros q Hq. apply E3. auto.
Qed.
Lemma cinv_frame g k o o' c : (forall q, in_class g c q -> pages o' q = pages o q) ->
  (forall x, in_class g c (page_of x) -> mem o' x = mem o x \/ mem o' x = 0 \/ pages o (page_of x) <> Some PNone) ->
  (forall q, pages o q <> None -> pages o' q <> None) ->
  cinv g k o c -> cinv g k o' c.
Proof.
  intros E1 E2 E3 (E & F & P & I & ST). exists E, F, P. split; [|exact ST]. pose proof I as [G Me Sl Li Ma Qu Pg Et Rn Fq]. constructor; auto.
  eapply pages_frame; [exact E1|exact E2|exact E3| |exact Pg].
  intros i q Ha Hq. pose proof (active_slab g k _ _ _ _ _ _ _ _ I Ha) as Is. destruct (slab_range g k o c _ _ _ _ _ i I Is) as [R1 R2].
  eapply (slab_class g k c G); [|exact Hq]. lia.
Qed.
Lemma reg_ok_frame o o' r : (forall q, region_span r q = true -> pages o' q = pages o q) -> reg_ok o r -> reg_ok o' r.
Proof.
  intros H []. constructor; auto.
  - intros q Hq. rewrite H; auto. unfold region_span. eapply in_pages_sub; [| |exact Hq]; lia.
  - intros q Hs Hq. rewrite H; auto.
Qed.
Lemma spans_in_region g s LL X r : In r (rl_own LL) -> In (region_span r) (spans g s LL X).
Proof. intros H. unfold spans. rewrite !in_app_iff. right. left. apply in_map. auto. Qed.
Lemma spans_in_fl g s LL X f : In f X -> In (fl_in f) (spans g s LL X).
Proof. intros H. unfold spans. rewrite !in_app_iff. right. right. right. apply in_map. auto. Qed.
Lemma spans_in_fixed g s LL X f : In f (fixed g s) -> In f (spans g s LL X).
Proof. intros H. unfold spans. rewrite in_app_iff. auto. Qed.

Lemma ginv_geom g s LL X a k : ginv g s LL X -> class_in g a k -> geom g k (st_cls s a k).
Proof. intros [U PL CL RA RQ ND RG FL AP MP GP GC GT] C0. destruct (CL a k C0) as ((E & F & P & I0 & _) & _). apply I0. Qed.
Lemma cdom_fixed g s LL X a k q : ginv g s LL X -> class_in g a k -> cdom g (st_cls s a k) q -> meta_span g s q = true \/ slab_span g s q = true.
Proof.
  intros [U PL CL RA RQ ND RG FL AP MP GP GC GT] C [H|H]; [right; eapply class_in_slab; eauto; apply CL; auto|left; eapply info_in_meta; eauto].
  rewrite <- (cp_info _ _ _ _ _ (proj2 (CL a k C))). exact H.
Qed.
Lemma fixed_apart g s LL X q : ginv g s LL X -> meta_span g s q = true -> slab_span g s q = true -> False.
Proof. intros I H1 H2. pose proof (gi_apart _ _ _ _ I q) as AP. cbn in AP. unfold hit at 1 2 in AP. rewrite H1, H2 in AP. match type of AP with context [cover ?l q] => pose proof (cover_nonneg l q) end. lia. Qed.
Lemma fixed_rest g s LL X f q : ginv g s LL X -> In f (map region_span (rl_own LL) ++ qspans (st_ra s) ++ map fl_in X) -> f q = true ->
  meta_span g s q = false /\ slab_span g s q = false.
Proof.
  intros I Hf Hq. pose proof (gi_apart _ _ _ _ I q) as AP. unfold spans in AP. rewrite cover_app in AP. pose proof (cover_In _ f q Hf Hq). cbn in AP. unfold hit in AP.
  destruct (meta_span g s q), (slab_span g s q); split; auto; lia.
Qed.
Lemma class_away g s LL X a k a0 k0 q : ginv g s LL X -> class_in g a k -> class_in g a0 k0 -> (a0 <> a \/ k0 <> k) ->
  in_class g (st_cls s a0 k0) q -> ~ cdom g (st_cls s a k) q.
Proof.
  intros I C C0 D Hq [H|H]; pose proof I as [U PL CL RA RQ ND RG FL AP MP GP GC GT].
  - eapply (class_disjoint g s U a0 k0 a k q); eauto; try apply CL; auto. intros; eapply ginv_geom; eauto.
  - eapply fixed_apart; [exact I| |].
    + apply (info_in_meta g s U a k q C). rewrite <- (cp_info _ _ _ _ _ (proj2 (CL a k C))). exact H.
    + eapply class_in_slab; [exact U| |apply CL|exact Hq]; auto.
Qed.
(** one operation of one size class *)
Lemma ginv_class_step g s LL X a k o' c' : ginv g s LL X -> class_in g a k ->
  let c := st_cls s a k in
  os_in (cdom g c) (st_os s) o' -> cinv g k o' c' -> c_start c' = c_start c -> c_info c' = c_info c ->
  ginv g (put_cls a k c' (set_st_os o' s)) LL X.
Proof.
  intros I C c O CI Es Ei. pose proof I as [U PL CL RA RQ ND RG FL AP MP GP GC GT]. set (s' := put_cls a k c' (set_st_os o' s)).
  assert (forall f q, In f (map region_span (rl_own LL) ++ qspans (st_ra s) ++ map fl_in X) -> f q = true -> ~ cdom g c q) as ND2.
  { intros f q Hf Hq D. destruct (fixed_rest _ _ _ _ _ _ I Hf Hq). destruct (cdom_fixed _ _ _ _ _ _ _ I C D); congruence. }
  assert (spans g s' LL X = spans g s LL X) as Sp by reflexivity.
  constructor; auto.
  - destruct PL. constructor; auto.
  - intros a0 k0 C0. destruct (CL a0 k0 C0) as [I0 P0]. change (st_cls s' a0 k0) with (if (a0 =? a) && (k0 =? k) then c' else st_cls s a0 k0).
    destruct ((a0 =? a) && (k0 =? k)) eqn:Q.
    + assert (a0 = a /\ k0 = k) as [-> ->] by lia. split; [exact CI|]. destruct P0. fold c in cp_lo0, cp_hi0, cp_info0. constructor; rewrite ?Es, ?Ei; auto.
    + split; [|destruct P0; constructor; auto].
      assert (forall q, in_class g (st_cls s a0 k0) q -> ~ cdom g c q) as AW by (intros q; eapply class_away; eauto; lia).
      eapply cinv_frame; [..|exact I0].
      * intros q Hq. apply (oi_pages _ _ _ O). auto.
      * intros x Hx. left. apply (oi_mem _ _ _ O). auto.
      * intros q. apply (oi_mapped _ _ _ O).
  - intros r Hr. eapply reg_ok_frame; [|apply RG; auto]. intros q Hq. apply (oi_pages _ _ _ O). eapply ND2; [|exact Hq]. rewrite in_app_iff. left. apply in_map. auto.
  - intros f q Hf Hq. change (st_os s') with o'. rewrite (oi_pages _ _ _ O); [apply FL; auto|]. eapply ND2; [|exact Hq]. rewrite !in_app_iff. right. right. apply in_map. auto.
  - intros f q Hf Hq. change (st_os s') with o'. apply (oi_mapped _ _ _ O). eapply MP; [rewrite <- Sp; exact Hf|exact Hq].
  - intros q Hq Hn. change (st_os s') with o'.
    assert (forall a0 k0, class_in g a0 k0 -> ~ in_class g (st_cls s a0 k0) q) as Hn'.
    { intros a0 k0 C0 Hi. apply (Hn a0 k0 C0). change (st_cls s' a0 k0) with (if (a0 =? a) && (k0 =? k) then c' else st_cls s a0 k0). destruct ((a0 =? a) && (k0 =? k)) eqn:Q; [|exact Hi].
      assert (a0 = a /\ k0 = k) as [-> ->] by lia. unfold in_class in *. rewrite Es. exact Hi. }
    rewrite (oi_pages _ _ _ O); [apply GP; auto|]. intros [D|D]; [exact (Hn' a k C D)|]. eapply fixed_apart; [exact I| |exact Hq].
    apply (info_in_meta g s U a k q C). rewrite <- (cp_info _ _ _ _ _ (proj2 (CL a k C))). exact D.
  - intros SL Q f q Hf Hq. change (st_os s') with o' in *. rewrite (oi_pages _ _ _ O); [apply (GC SL (unrefused_back _ _ (onward_in _ _ _ O) Q) f q Hf Hq)|]. eapply ND2; [|exact Hq]. rewrite !in_app_iff. right. left. exact Hf.
  - intros SL Q. destruct (GT SL (unrefused_back _ _ (onward_in _ _ _ O) Q)) as (gd & Bg & T). exists gd. split; [exact Bg|]. change (halo g s' gd) with (halo g s gd).
    intros q Hq. change (st_os s') with o' in *. rewrite Sp. destruct (Z.eq_dec (cover (fixed g s) q) 0) as [Z0|Z0].
    2:{ right. right. unfold spans. rewrite cover_app. pose proof (cover_nonneg (fixed g s) q). pose proof (cover_nonneg (map region_span (rl_own LL) ++ qspans (st_ra s) ++ map fl_in X) q). lia. }
    apply T. rewrite <- (oi_pages _ _ _ O q); [exact Hq|]. intros D. destruct (cdom_fixed _ _ _ _ _ _ _ I C D) as [D1|D1].
    + pose proof (cover_In (fixed g s) (meta_span g s) q ltac:(left; reflexivity) D1). lia.
    + pose proof (cover_In (fixed g s) (slab_span g s) q ltac:(right; left; reflexivity) D1). lia.
Qed.

(** the pages a set of flights covers *)
Definition fl_pages (X : list fl) (q : Z) : Prop := exists f, In f X /\ fl_in f q = true.
Lemma fl_pages_cover X q : ~ fl_pages X q -> cover (map fl_in X) q = 0.
Proof.
  induction X as [|f X IH]; intros H; [reflexivity|]. cbn. unfold hit. destruct (fl_in f q) eqn:E; [exfalso; apply H; exists f; cbn; auto|].
  rewrite IH; [lia|]. intros (f' & A & B). apply H. exists f'. cbn. auto.
Qed.
(** a system call on flights [X1], giving flights [X2] in pages that were theirs or unmapped *)
Lemma ginv_flight_step g s LL X1 X2 X o' : ginv g s LL (X1 ++ X) -> onward (st_os s) o' ->
  (forall q, ~ fl_pages X1 q -> ~ fl_pages X2 q -> pages o' q = pages (st_os s) q) ->
  (forall x, ~ fl_pages X1 (page_of x) -> ~ fl_pages X2 (page_of x) -> mem o' x = mem (st_os s) x) ->
  (forall f q, In f X2 -> fl_in f q = true -> pages o' q = Some (fl_prot f q)) ->
  (forall q, cover (map fl_in X2) q <= 1) ->
  (forall q, fl_pages X2 q -> fl_pages X1 q \/ pages (st_os s) q = None) ->
  (rl_strict LL = true -> unrefused o' -> forall q, fl_pages X1 q -> ~ fl_pages X2 q -> pages o' q = None) ->
  ginv g (set_st_os o' s) LL (X2 ++ X).
Proof.
  intros I ON Hp Hm H2 Hc Hn Ht. pose proof I as [U PL CL RA RQ ND RG FL AP MP GP GC GT]. set (s' := set_st_os o' s).
  assert (forall f q, In f (fixed g s ++ map region_span (rl_own LL) ++ qspans (st_ra s) ++ map fl_in X) -> f q = true -> ~ fl_pages X1 q /\ ~ fl_pages X2 q) as OUT.
  { intros f q Hf Hq.
    assert (~ fl_pages X1 q) as N1.
    { intros (f1 & A & B). specialize (AP q). unfold spans in AP. rewrite map_app in AP. rewrite !cover_app in AP.
      pose proof (cover_In (map fl_in X1) (fl_in f1) q ltac:(apply in_map; auto) B). pose proof (cover_In _ f q Hf Hq) as Q. rewrite !cover_app in Q. lia. }
    split; [exact N1|]. intros F2. destruct (Hn q F2) as [|NN]; [contradiction|].
    apply (MP f q); [|exact Hq|exact NN]. unfold spans. rewrite map_app. rewrite !in_app_iff in Hf. rewrite !in_app_iff. tauto. }
  assert (forall f q, In f (fixed g s ++ map region_span (rl_own LL) ++ qspans (st_ra s) ++ map fl_in X) -> f q = true -> pages o' q = pages (st_os s) q) as EQ.
  { intros f q Hf Hq. destruct (OUT f q Hf Hq). auto. }
  constructor; auto.
  - destruct PL. constructor; auto.
  - intros a k C. destruct (CL a k C) as [I0 P0]. split; [|destruct P0; constructor; auto].
    assert (forall q, in_class g (st_cls s a k) q -> slab_span g s q = true) as IS by (intros q Hq; eapply class_in_slab; eauto).
    destruct I0 as (E & F & P & I0 & ST). exists E, F, P. split; [|exact ST]. pose proof I0 as [G Me Sl Li Ma Qu Pg Et Rn Fq]. constructor; auto.
    destruct Pg as [Pa Pb Pc Pd]. change (st_os s') with o'.
    assert (forall q, in_class g (st_cls s a k) q -> pages o' q = pages (st_os s) q) as EC by (intros q Hq; apply (EQ (slab_span g s) q); [cbn; auto|auto]).
    constructor.
    + intros i q Ha Hq. rewrite EC; [eauto|]. pose proof (active_slab g k _ _ _ _ _ _ _ _ I0 Ha) as Is. destruct (slab_range g k _ _ _ _ _ _ _ i I0 Is) as [R1 R2]. eapply (slab_class g k _ G); [|exact Hq]. lia.
    + intros q Hq Hx. rewrite EC; auto.
    + intros x Hx Hx2. destruct (OUT (slab_span g s) (page_of x)) as [O1 O2]; [cbn; auto|auto|]. rewrite Hm by auto. rewrite EC in Hx2; auto.
    + intros q Hq. rewrite (EQ (meta_span g s) q); [apply Pd; auto|cbn; auto|]. eapply info_in_meta; eauto. rewrite <- (cp_info _ _ _ _ _ P0). exact Hq.
  - intros r Hr. eapply reg_ok_frame; [|apply RG; auto]. intros q Hq. apply (EQ (region_span r) q); [|auto]. rewrite !in_app_iff. right. left. apply in_map. auto.
  - intros f q Hf Hq. change (st_os s') with o'. apply in_app_iff in Hf. destruct Hf as [Hf|Hf]; [auto|].
    rewrite (EQ (fl_in f) q); [apply FL; auto; apply in_app_iff; auto| |auto]. rewrite !in_app_iff. right. right. right. apply in_map. auto.
  - intros q. change (spans g s' LL (X2 ++ X)) with (spans g s LL (X2 ++ X)). specialize (AP q). unfold spans in *. rewrite !map_app in *. rewrite !app_assoc in *.
    rewrite !cover_app in *. pose proof (cover_nonneg (map fl_in X1) q).
    destruct (Z.eq_dec (cover (map fl_in X2) q) 0) as [->|NZ]; [lia|]. specialize (Hc q). pose proof (cover_nonneg (map fl_in X2) q).
    assert (fl_pages X2 q) as F2.
    { clear -NZ. induction X2 as [|f X2 IH]; cbn in NZ; [lia|]. unfold hit in NZ. destruct (fl_in f q) eqn:E; [exists f; cbn; auto|]. destruct IH as (f' & A & B); [lia|]. exists f'. cbn; auto. }
    cut (cover (fixed g s) q + cover (map region_span (rl_own LL)) q + cover (qspans (st_ra s)) q + cover (map fl_in X) q = 0).
    { rewrite ?cover_app. lia. }
    destruct (Z.eq_dec (cover (fixed g s ++ map region_span (rl_own LL) ++ qspans (st_ra s) ++ map fl_in X) q) 0) as [Z0|Z0]; [rewrite !cover_app in Z0; lia|]. exfalso.
    assert (exists f, In f (fixed g s ++ map region_span (rl_own LL) ++ qspans (st_ra s) ++ map fl_in X) /\ f q = true) as (f & Hf & Hq).
    { apply cover_pos, Z0. }
    rewrite !app_assoc in Hf. destruct (OUT f q Hf Hq). contradiction.
  - intros f q Hf Hq. change (st_os s') with o'. change (spans g s' LL (X2 ++ X)) with (spans g s LL (X2 ++ X)) in Hf.
    unfold spans in Hf. rewrite map_app in Hf. 
    assert (In f (fixed g s ++ map region_span (rl_own LL) ++ qspans (st_ra s) ++ map fl_in X) \/ In f (map fl_in X2)) as [H|H].
    { rewrite !in_app_iff in *. tauto. }
    + rewrite (EQ f q H Hq). eapply MP; [|exact Hq]. unfold spans. rewrite map_app. rewrite !in_app_iff in *. tauto.
    + apply in_map_iff in H. destruct H as (f2 & <- & Hf2). rewrite (H2 f2 q Hf2 Hq). discriminate.
  - intros q Hq Hno. change (st_os s') with o'. rewrite (EQ (slab_span g s) q); [|cbn; auto|exact Hq]. apply GP; auto.
  - intros SL Q f q Hf Hq. change (st_os s') with o' in *. rewrite (EQ f q); [|rewrite !in_app_iff; right; right; left; exact Hf|exact Hq]. exact (GC SL (unrefused_back _ _ ON Q) f q Hf Hq).
  - intros SL Q. destruct (GT SL (unrefused_back _ _ ON Q)) as (gd & Bg & T). exists gd. split; [exact Bg|]. change (halo g s' gd) with (halo g s gd).
    intros q Hq. change (st_os s') with o' in *. change (spans g s' LL (X2 ++ X)) with (spans g s LL (X2 ++ X)).
    destruct (Z.eq_dec (cover (map fl_in X2) q) 0) as [Z2|Z2].
    2:{ right. right. unfold spans. rewrite map_app, !cover_app. pose proof (cover_nonneg (map fl_in X2) q). pose proof (cover_nonneg (fixed g s) q).
        pose proof (cover_nonneg (map region_span (rl_own LL)) q). pose proof (cover_nonneg (qspans (st_ra s)) q). pose proof (cover_nonneg (map fl_in X) q). lia. }
    assert (~ fl_pages X2 q) as N2. { intros (f & A & B). pose proof (cover_In (map fl_in X2) (fl_in f) q ltac:(apply in_map; auto) B). lia. }
    destruct (Z.eq_dec (cover (map fl_in X1) q) 0) as [Z1|Z1].
    + assert (~ fl_pages X1 q) as N1. { intros (f & A & B). pose proof (cover_In (map fl_in X1) (fl_in f) q ltac:(apply in_map; auto) B). lia. }
      rewrite (Hp q N1 N2) in Hq. destruct (T q Hq) as [|[|H]]; [auto|auto|]. right. right. unfold spans in *. rewrite map_app in *. rewrite !cover_app in *. lia.
    + exfalso. apply Hq, (Ht SL Q q); [|exact N2]. destruct (cover_pos _ _ Z1) as (f & Hf & E). apply in_map_iff in Hf. destruct Hf as (f1 & <- & Hf1). exists f1. auto.
Qed.
(** flights can be split, merged and forgotten *)
Lemma ginv_reflight g s LL X1 X2 X : ginv g s LL (X1 ++ X) ->
  (forall f q, In f X2 -> fl_in f q = true -> exists f1, In f1 X1 /\ fl_in f1 q = true /\ fl_prot f1 q = fl_prot f q) ->
  (forall q, cover (map fl_in X2) q <= 1) -> (rl_strict LL = true -> unrefused (st_os s) -> forall q, fl_pages X1 q -> fl_pages X2 q) -> ginv g s LL (X2 ++ X).
Proof.
  intros I H2 Hc Ht. replace s with (set_st_os (st_os s) s) by (destruct s; reflexivity). eapply ginv_flight_step; [exact I|apply onward_refl|auto|auto| |exact Hc| |].
  - intros f q Hf Hq. destruct (H2 f q Hf Hq) as (f1 & A & B & <-). apply (gi_fl _ _ _ _ I); auto. apply in_app_iff; auto.
  - intros q (f & Hf & Hq). left. destruct (H2 f q Hf Hq) as (f1 & A & B & _). exists f1. auto.
  - intros SL Q q F1 F2. elim F2. auto.
Qed.
(** flights can be forgotten if leaks do not matter any more *)
Definition spent (LL : regs) (o : os) : Prop := rl_strict LL = true -> ~ unrefused o.
Lemma ginv_drop g s LL X1 X : ginv g s LL (X1 ++ X) -> spent LL (st_os s) -> ginv g s LL X.
Proof. intros I W. apply (ginv_reflight g s LL X1 [] X I). - intros f q []. - intros q. cbn. lia. - intros SL Q. elim (W SL Q). Qed.
Lemma ginv_perm g s LL X X' : Permutation X X' -> ginv g s LL X -> ginv g s LL X'.
Proof.
  intros P []. constructor; auto.
  - intros f q Hf. apply gi_fl0. eapply Permutation_in; [apply Permutation_sym; exact P|auto].
  - intros q. rewrite <- (gi_apart0 q). unfold spans. rewrite !cover_app. rewrite (cover_perm (map fl_in X') (map fl_in X)); [lia|]. apply Permutation_sym, Permutation_map. auto.
  - intros f q Hf. apply gi_map0. unfold spans in *. rewrite !in_app_iff in *. destruct Hf as [|[|[|H]]]; auto. right. right. right.
    eapply Permutation_in; [|exact H]. apply Permutation_map, Permutation_sym. auto.
  - intros SL Q. destruct (gi_tight0 SL Q) as (gd & Bg & T). exists gd. split; [exact Bg|]. intros q Hq. destruct (T q Hq) as [|[|H]]; [auto|auto|]. right. right. unfold spans in *. rewrite !cover_app in *. rewrite (cover_perm (map fl_in X') (map fl_in X)); [exact H|]. apply Permutation_sym, Permutation_map. auto.
Qed.
