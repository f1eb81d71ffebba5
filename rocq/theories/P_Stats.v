(** The counters of a size class against the trace of calls. *)
From Coq Require Import String ZArith List Bool Lia ZifyBool Permutation.
From Verif Require Import M_Base M_Config M_SizeClass M_Libdivide M_OS M_Random M_Slab M_Region M_Api M_Hist M_Stats S_SizeClass S_Slab S_Heap S_Class S_Stats
  P_Base P_Count P_SizeClass P_SizeClass2 P_Libdivide P_Random P_Bitmap P_Bitmap2 P_OS P_Links P_Slab1 P_Slab2 P_Slab3 P_Slab4 P_Slab5 P_Slab6 P_Slab7 P_Slab8 P_Slab9 P_Slab11 P_Path P_Quar
  P_Region P_Heap1 P_Heap2 P_Heap3 P_Heap4 P_Heap5 P_Heap6 P_Heap7 P_Heap8 P_Heap9 P_Heap10 P_Heap11 P_Init P_Api0 P_Api1 P_Api2 P_Api3 P_Api4 P_Api5 P_Api6 P_Api7 P_Api8.
Import ListNotations.
Open Scope Z_scope.
Ltac Zify.zify_post_hook ::= idtac.

(** ** counters along a path of one class *)
Definition is_alloc (l : clab) : bool := negb (is_free l).
Definition nalloc (l : list clab) : Z := zlen (filter is_alloc l).
Lemma nalloc_app l1 l2 : nalloc (l1 ++ l2) = nalloc l1 + nalloc l2.
Proof. unfold nalloc, zlen. rewrite filter_app, app_length. lia. Qed.
Definition counted (g : config) (k : Z) (c : size_class) (n d : Z) : Prop := STATS g = true ->
  c_nmalloc c = w64 n /\ c_ndalloc c = w64 d /\ c_allocated c = w64 (slot_size g k * (n - d)).
Lemma w64_add a b : w64 (w64 a + b) = w64 (a + b). Proof. unfold w64. rewrite Z.add_mod_idemp_l by lia. reflexivity. Qed.
Lemma w64_sub a b : w64 (w64 a - b) = w64 (a - b). Proof. unfold w64. rewrite Zminus_mod_idemp_l. reflexivity. Qed.
Lemma path_counted g k o c ls o' c' : cpath g k o c ls o' c' -> forall n d, counted g k c n d -> counted g k c' (n + nalloc ls) (d + nfree ls).
Proof.
  induction 1 as [o c|o o' c' L FC|o c ls o1 c1 o2 P IH L|o c ls o1 c1 E F p o2 c2 P IH I1 SP|o c ls o1 c1 E F o2 c2 P IH I1 SP|o c ls o1 c1 E F p e o2 c2 P IH I1 SP|o c ls o1 c1 E F o2 c2 P IH I1 SP]; intros n d C.
  - cbn. unfold nalloc, nfree. cbn. rewrite !Z.add_0_r. exact C.
  - unfold nalloc, nfree. cbn. rewrite !Z.add_0_r. destruct FC as (st & inf & d1 & d2 & rng & ->). intros S. destruct (C S) as (A1 & A2 & A3). cbn in *. auto.
  - auto.
  - intros S. destruct (IH n d C S) as (A1 & A2 & A3). destruct SP as (o3 & c3 & E3 & F3 & [= <- <-] & _ & _ & _ & (i & j & _ & AP & _)). destruct (ap_st _ _ _ _ _ _ _ _ AP S) as (B1 & B2 & B3).
    rewrite B1, B2, B3, A1, A2, A3, !w64_add, nalloc_app, nfree_app. cbn. split; [f_equal; lia|]. split; f_equal; lia.
  - intros S. destruct (IH n d C S) as (A1 & A2 & A3). destruct SP as (o3 & c3 & E3 & F3 & [= <- <-] & _ & _ & _ & (_ & _ & _ & _ & (B1 & B2 & B3 & _) & _)). rewrite B1, B2, B3. auto.
  - intros S. destruct (IH n d C S) as (A1 & A2 & A3). destruct SP as (o3 & c3 & E3 & F3 & i & j & [= <- <-] & _ & DP & _). destruct (dp_st _ _ _ _ _ _ _ _ _ _ DP S) as (B1 & B2 & B3).
    rewrite B1, B2, B3, A1, A2, A3, w64_add, w64_sub, nalloc_app, nfree_app. cbn. split; [f_equal; lia|]. split; f_equal; lia.
  - intros S. destruct (IH n d C S) as (A1 & A2 & A3). destruct SP as (E1 & E' & F' & _ & _ & TP & _). destruct (tp_st _ _ _ _ _ _ _ _ _ TP) as (B1 & B2 & B3). rewrite B1, B2, B3. auto.
Qed.

(** ** labels of the trace *)
Lemma count_cons {A} (f : A -> bool) x l : count f (x :: l) = (if f x then 1 else 0) + count f l.
Proof. unfold count. cbn [filter]. destruct (f x); cbn [length]; lia. Qed.
Definition bump (g : config) (s : state) (a k : Z) (x : option Z) : Z := match x with Some p => if in_area g s a k p then 1 else 0 | None => 0 end.
Lemma in_area_inb g s a k p : in_area g s a k p = inb g (st_cls s a k) p. Proof. reflexivity. Qed.
Lemma ev_counts g s a k e : inb g (st_cls s a k) 0 = false -> nalloc (evmoves g (st_cls s a k) e) = bump g s a k (handed_out e) /\ nfree (evmoves g (st_cls s a k) e) = bump g s a k (freed_by e).
Proof.
  intros Z0. unfold bump. destruct e as [tid op an]. unfold handed_out, freed_by, evmoves. cbn [e_op e_ans].
  destruct op, an; cbn [evrm evadd allocates].
  all: try (rewrite ?moves_none; split; reflexivity).
  all: try (rewrite moves_add, <- in_area_inb; destruct (in_area _ _ _ _ _); split; reflexivity).
  - destruct (Z.eqb_spec p 0) as [->|N0].
    + rewrite moves_add, <- in_area_inb. destruct (Z.eqb_spec p0 0) as [->|N1]; [rewrite in_area_inb, Z0; split; reflexivity|]. cbn. destruct (in_area _ _ _ _ _); split; reflexivity.
    + destruct (Z.eqb_spec p0 p) as [->|N1]; [rewrite moves_same; split; reflexivity|]. cbn [orb]. rewrite <- moves_both by auto. rewrite nalloc_app, nfree_app, moves_add, moves_rm, <- !in_area_inb. destruct (in_area g s a k p0), (in_area g s a k p); split; reflexivity.
  - destruct (Z.eqb_spec p 0) as [->|N0]; [rewrite moves_none; split; reflexivity|]. rewrite moves_rm, <- in_area_inb. destruct (in_area _ _ _ _ _); split; reflexivity.
  - destruct (Z.eqb_spec p 0) as [->|N0]; [rewrite moves_none; split; reflexivity|]. rewrite moves_rm, <- in_area_inb. destruct (in_area _ _ _ _ _); split; reflexivity.
Qed.
Lemma freed_live g t s LL tid c a s' p : linv g t s LL -> words c -> permitted g (live t) c -> run (op_run g tid c) s = Ok (a, s') -> freed_by (mkEv tid c a) = Some p -> is_live t p.
Proof.
  intros LI WD PM R F. unfold freed_by in F. cbn [e_op e_ans] in F. destruct c; try discriminate F; destruct a; try discriminate F.
  - destruct (Z.eqb_spec p0 0); [discriminate|]. destruct (p1 =? p0); [discriminate|]. injection F as ->. destruct PM as [PM|(b & PM & _)]; [contradiction|]. exists b. exact PM.
  - destruct (Z.eqb_spec p0 0); [discriminate|]. injection F as ->. cbn [op_run] in R; apply run_pmap in R; destruct R as ([] & R & _). pose proof (free_wp g s LL p (li_ready _ _ _ _ LI) WD) as X. unfold wp in X. rewrite R in X. destruct (Z.eqb_spec p 0); [contradiction|].
    destruct X as (L2 & m & X & _). apply (live_iff _ _ _ _ _ LI). exists m. apply X.
  - destruct (Z.eqb_spec p0 0); [discriminate|]. injection F as ->. cbn [op_run] in R; apply run_pmap in R; destruct R as ([] & R & _). destruct WD as [WD WD2]. pose proof (free_sized_wp g s LL p n (li_ready _ _ _ _ LI) WD WD2) as X. unfold wp in X. rewrite R in X. destruct (Z.eqb_spec p 0); [contradiction|].
    destruct X as (L2 & m & X & _). apply (live_iff _ _ _ _ _ LI). exists m. apply X.
Qed.

(** ** live blocks of a class *)
Lemma count_forget (f : Z -> bool) p l : NoDup (map fst l) -> In p (map fst l) -> count (fun b : Z * op => f (fst b)) (forget p l) = count (fun b => f (fst b)) l - (if f p then 1 else 0).
Proof.
  induction l as [|[q c] l IH]; cbn [map fst]; intros ND HI; [destruct HI|]. inversion ND as [|? ? N1 N2]; subst. unfold forget. cbn [filter fst]. rewrite (count_cons _ (q, c)). cbn [fst]. destruct (Z.eqb_spec q p) as [->|NE]; cbn [negb].
  - change (filter _ l) with (forget p l). rewrite (forget_absent p l N1). lia.
  - rewrite count_cons. cbn [fst]. destruct HI as [HI|HI]; [contradiction|]. specialize (IH N2 HI). unfold forget in IH. lia.
Qed.
Lemma is_live_map t p : is_live t p -> In p (map fst (live t)). Proof. intros (c & H). apply in_map_iff. exists (p, c). auto. Qed.
Lemma live_count g s0 a k t s LL tid c an s' : linv g t s LL -> words c -> permitted g (live t) c -> run (op_run g tid c) s = Ok (an, s') -> in_area g s0 a k 0 = false ->
  live_in g s0 a k (mkEv tid c an :: t) = live_in g s0 a k t + bump g s0 a k (handed_out (mkEv tid c an)) - bump g s0 a k (freed_by (mkEv tid c an)).
Proof.
  intros LI WD PM R Z0. pose proof (fun p => freed_live g t s LL tid c an s' p LI WD PM R) as FL. pose proof (li_nd _ _ _ _ LI) as ND. pose proof (linv_zero _ _ _ _ LI) as LZ. unfold live_in. cbn [live]. unfold after. cbn [e_op e_ans].
  unfold bump, handed_out, freed_by in *. cbn [e_op e_ans] in *.
  destruct c, an; cbn [allocates] in *; rewrite ?count_cons; cbn [fst]; try lia.
  - destruct (Z.eqb_spec p 0) as [->|N0].
    + rewrite LZ. destruct (Z.eqb_spec p0 0) as [->|N1]; [rewrite Z0|]; cbn; lia.
    + destruct (Z.eqb_spec p0 p) as [->|N1]; cbn [orb] in *.
      * rewrite (count_forget (fun x => in_area g s0 a k x)); [lia|auto|]. destruct PM as [PM|(b & PM & _)]; [contradiction|]. apply is_live_map. exists b. exact PM.
      * rewrite (count_forget (fun x => in_area g s0 a k x)); [lia|auto|]. apply is_live_map, FL. reflexivity.
  - destruct (Z.eqb_spec p 0) as [->|N0]; [rewrite LZ; lia|]. rewrite (count_forget (fun x => in_area g s0 a k x)); [lia|auto|]. apply is_live_map, FL. reflexivity.
  - destruct (Z.eqb_spec p 0) as [->|N0]; [rewrite LZ; lia|]. rewrite (count_forget (fun x => in_area g s0 a k x)); [lia|auto|]. apply is_live_map, FL. reflexivity.
Qed.

(** ** the whole history *)
Lemma calm_before g W o t s : usable_config g = true -> history g W o t s -> is_init s = false -> live t = [] /\ forall e, In e t -> handed_out e = None /\ freed_by e = None.
Proof.
  intros U H. induction H as [|t s tid c a s' H IH TC WD PM ST E]; intros Hi; [split; [reflexivity|intros e []]|].
  assert (is_init s = false) as Hi0. { destruct (is_init s) eqn:X; [|auto]. rewrite (sited_init s s' (op_sited_ok _ _ _ _ _ _ E) X) in Hi. discriminate. }
  destruct (IH Hi0) as [L0 IH0]. destruct (history_linv _ _ _ _ _ U H) as (LL & LI). destruct (history_step _ _ _ _ _ _ _ _ _ _ U H LI TC WD PM E) as (LL' & SP).
  assert (live (mkEv tid c a :: t) = []) as L1. { destruct (live (mkEv tid c a :: t)) as [|[p b] l] eqn:X; [auto|]. destruct (live_block _ _ _ _ p b (sp_inv _ _ _ _ _ _ _ _ _ SP)) as (n & _ & _ & HI & _); [rewrite X; left; auto|]. pose proof (hinv_init _ _ _ HI). congruence. }
  split; [exact L1|]. intros e [<-|He]; [|auto]. split.
  - cbn [live] in L1. unfold after in L1. unfold handed_out. cbn [e_op e_ans] in *. destruct c, a; cbn [allocates] in *; auto; discriminate L1.
  - destruct (freed_by (mkEv tid c a)) as [p|] eqn:F; [|auto]. pose proof (freed_live _ _ _ _ _ _ _ _ _ LI WD PM E F) as (b & X). rewrite L0 in X. destruct X.
Qed.
Lemma area_same g s s' a k p : c_start (st_cls s' a k) = c_start (st_cls s a k) -> in_area g s' a k p = in_area g s a k p. Proof. unfold in_area. intros ->. reflexivity. Qed.
Lemma area_zero g s LL a k : hinv g s LL -> class_in g a k -> in_area g s a k 0 = false.
Proof. intros HI C. destruct (gclass g s LL [] (hi_inv _ _ _ HI) a k C) as (E & F & P & Iv & _). pose proof (ge_start _ _ _ (ci_geom _ _ _ _ _ _ _ _ _ Iv)). unfold in_area. lia. Qed.
Lemma count_none {A} (f : A -> bool) l : (forall x, In x l -> f x = false) -> count f l = 0.
Proof. induction l as [|x l IH]; intros H; [reflexivity|]. rewrite count_cons, (H x) by (left; auto). rewrite IH; [lia|]. intros; apply H; right; auto. Qed.
Lemma mallocs_cons g s a k e t : mallocs_in g s a k (e :: t) = bump g s a k (handed_out e) + mallocs_in g s a k t.
Proof. unfold mallocs_in. rewrite count_cons. unfold bump. destruct (handed_out e); lia. Qed.
Lemma frees_cons g s a k e t : frees_in g s a k (e :: t) = bump g s a k (freed_by e) + frees_in g s a k t.
Proof. unfold frees_in. rewrite count_cons. unfold bump. destruct (freed_by e); lia. Qed.
Lemma count_ext {A} (f f' : A -> bool) l : (forall x, f x = f' x) -> count f l = count f' l.
Proof. intros H. unfold count. rewrite (filter_ext f f' H). reflexivity. Qed.
Lemma counts_same g s s' a k t : c_start (st_cls s' a k) = c_start (st_cls s a k) ->
  mallocs_in g s' a k t = mallocs_in g s a k t /\ frees_in g s' a k t = frees_in g s a k t /\ live_in g s' a k t = live_in g s a k t.
Proof.
  intros E. unfold mallocs_in, frees_in, live_in. split; [|split]; apply count_ext; intros x.
  - destruct (handed_out x); [apply area_same|]; auto.
  - destruct (freed_by x); [apply area_same|]; auto.
  - apply area_same; auto.
Qed.
Lemma history_counted g W o t s a k : usable_config g = true -> history g W o t s -> is_init s = true -> exists_class g a k ->
  counted g k (st_cls s a k) (mallocs_in g s a k t) (frees_in g s a k t) /\ live_in g s a k t = mallocs_in g s a k t - frees_in g s a k t.
Proof.
  intros U H Hi C. induction H as [|t s tid c an s' H IH TC WD PM ST E]; [discriminate|].
  destruct (history_linv _ _ _ _ _ U H) as (LL & LI). destruct (history_step _ _ _ _ _ _ _ _ _ _ U H LI TC WD PM E) as (LL' & SP).
  pose proof (step_path _ _ _ _ _ _ _ _ _ a k SP C) as P. pose proof (ready_hinv _ _ _ (li_ready _ _ _ _ (sp_inv _ _ _ _ _ _ _ _ _ SP)) Hi) as HI'. pose proof (area_zero _ _ _ _ _ HI' C) as Z0.
  pose proof (ev_counts g s' a k (mkEv tid c an) Z0) as [N1 N2]. rewrite mallocs_cons, frees_cons, (live_count g s' a k t s LL tid c an s' LI WD PM E Z0), <- N1, <- N2.
  assert (counted g k (st_cls s a k) (mallocs_in g s' a k t) (frees_in g s' a k t) /\ live_in g s' a k t = mallocs_in g s' a k t - frees_in g s' a k t) as [B1 B2].
  { destruct (is_init s) eqn:Hi0.
    - destruct (IH eq_refl) as [X1 X2]. pose proof (ready_hinv _ _ _ (li_ready _ _ _ _ LI) Hi0) as HI. destruct (gclass g s LL [] (hi_inv _ _ _ HI) a k C) as (E0 & F0 & P0 & Iv & _). pose proof (ge_start _ _ _ (ci_geom _ _ _ _ _ _ _ _ _ Iv)).
      pose proof (cpath_start _ _ _ _ _ _ _ P ltac:(lia)) as Es. destruct (counts_same g s s' a k t Es) as (-> & -> & ->). auto.
    - destruct (calm_before _ _ _ _ _ U H Hi0) as [L0 CB]. assert (mallocs_in g s' a k t = 0) as -> by (apply count_none; intros x Hx; destruct (CB x Hx) as [-> _]; reflexivity).
      assert (frees_in g s' a k t = 0) as -> by (apply count_none; intros x Hx; destruct (CB x Hx) as [_ ->]; reflexivity). unfold live_in. rewrite L0. split; [|reflexivity].
      destruct (li_ready _ _ _ _ LI) as [X|X]; [pose proof (hinv_init _ _ _ X); congruence|]. rewrite (id_cls _ _ _ X). intros _. cbn. rewrite Z.mul_0_r. auto. }
  split; [|lia]. pose proof (path_counted _ _ _ _ _ _ _ P _ _ B1) as Y. replace (nalloc _ + mallocs_in g s' a k t) with (mallocs_in g s' a k t + nalloc (evmoves g (st_cls s' a k) (mkEv tid c an))) by lia.
  replace (nfree _ + frees_in g s' a k t) with (frees_in g s' a k t + nfree (evmoves g (st_cls s' a k) (mkEv tid c an))) by lia. exact Y.
Qed.

(** ** slabs in use *)
Definition slabb (g : config) (i : Z) : bool := negb (i mod (GUARD_SLABS_INTERVAL g + 1) =? GUARD_SLABS_INTERVAL g).
Lemma div_step m d : 0 <= m -> 1 <= d -> (m + 1) / (d + 1) = m / (d + 1) + (if m mod (d + 1) =? d then 1 else 0).
Proof.
  intros Hm Hd. pose proof (Z.div_mod m (d + 1) ltac:(lia)) as E. pose proof (Z.mod_pos_bound m (d + 1) ltac:(lia)) as B. destruct (Z.eqb_spec (m mod (d + 1)) d) as [Q|Q].
  - symmetry. apply (Z.div_unique _ _ _ 0); [lia|]. rewrite Q in E. lia.
  - rewrite Z.add_0_r. symmetry. apply (Z.div_unique _ _ _ (m mod (d + 1) + 1)); lia.
Qed.
Lemma slabb_count g m : 1 <= GUARD_SLABS_INTERVAL g -> 0 <= m -> zcount (slabb g) 0 m = m - m / (GUARD_SLABS_INTERVAL g + 1).
Proof.
  intros G. revert m. apply natlike_ind; [rewrite Z.div_0_l by lia; reflexivity|]. intros m Hm IH. rewrite (zcount_split _ 0 m (Z.succ m)) by lia. unfold Z.succ. rewrite zcount_one, IH, (div_step m) by lia. unfold slabb. destruct (_ =? _); cbn; lia.
Qed.
Lemma filter_out (d : list Z) : forall l, NoDup l -> NoDup d -> (forall x, In x d -> In x l) -> zlen (filter (fun x => negb (existsb (Z.eqb x) d)) l) = zlen l - zlen d.
Proof.
  induction d as [|x d IH]; intros l Nl Nd I.
  - cbn [existsb negb]. assert (filter (fun _ : Z => true) l = l) as -> by (clear; induction l; cbn; congruence). unfold zlen. cbn. lia.
  - inversion Nd as [|? ? N1 N2]; subst. destruct (in_split x l (I x (or_introl eq_refl))) as (l1 & l2 & ->). apply NoDup_remove in Nl. destruct Nl as [Nl Nx].
    specialize (IH (l1 ++ l2) Nl N2). rewrite filter_app. cbn [filter existsb]. rewrite Z.eqb_refl. cbn [negb orb]. rewrite <- filter_app.
    rewrite (filter_ext_in (fun y => negb ((y =? x) || existsb (Z.eqb y) d)) (fun y => negb (existsb (Z.eqb y) d))).
    + rewrite IH; [unfold zlen; rewrite !app_length; cbn; lia|]. intros y Hy. destruct (in_app_or _ _ _ (I y (or_intror Hy))) as [A|[A|A]]; [apply in_or_app; auto|subst; contradiction|apply in_or_app; auto].
    + intros y Hy. destruct (Z.eqb_spec y x); [subst; contradiction|reflexivity].
Qed.
Lemma existsb_In x d : existsb (Z.eqb x) d = true <-> In x d.
Proof. rewrite existsb_exists. split; [intros (y & H & E); apply Z.eqb_eq in E; subst; auto|intros H; exists x; split; [auto|apply Z.eqb_refl]]. Qed.
Lemma slabs_counted g k o c E F : 0 <= k < N_SIZE_CLASSES g -> 1 <= GUARD_SLABS_INTERVAL g -> cinvL g k o c E F -> slabs_in_use c (nact g c F).
Proof.
  intros Hk G CI. pose proof CI as (P & I & _). pose proof (ci_link _ _ _ _ _ _ _ _ _ I) as []. pose proof (ci_match _ _ _ _ _ _ _ _ _ I) as []. pose proof (ci_geom _ _ _ _ _ _ _ _ _ I) as GE.
  assert (0 <= c_mcount c) as M0 by (pose proof (ci_meta _ _ _ _ _ _ _ _ _ I) as []; lia).
  apply NoDup_app_inv in lk_nd. destruct lk_nd as (ND1 & ND2 & ND3).
  set (D := F ++ somes (c_fq c)) in *. set (A := filter (slabb g) (zrange 0 (c_mcount c))).
  assert (NoDup A) as NA by (apply NoDup_filter, zrange_NoDup).
  assert (forall i, In i A <-> is_slab g c i) as IA. { intros i. unfold A, is_slab, slabb. rewrite filter_In, in_zrange, negb_true_iff, Z.eqb_neq. tauto. }
  assert (forall i, In i D -> In i A) as DA. { intros i Hi. apply IA. apply (ma_0 i ltac:(discriminate)). apply in_or_app. auto. }
  exists (filter (fun x => negb (existsb (Z.eqb x) D)) A). split; [apply NoDup_filter; auto|]. split.
  { intros i. rewrite filter_In, IA, negb_true_iff, (holds_cnt g k _ i Hk (ci_slabs _ _ _ _ _ _ _ _ _ I i)), (cached_E _ _ _ _ _ _ i CI), <- not_true_iff_false, existsb_In.
    pose proof (ma_0 i ltac:(discriminate)) as M. rewrite in_app_iff in M. split.
    - intros [H1 H2]. pose proof (ci_slabs _ _ _ _ _ _ _ _ _ I i) as SO. pose proof (so_cnt _ _ SO) as Ec. destruct (Z.eq_dec (cntof c i) 0) as [Z0|Z0]; [|left; unfold cntof in *; rewrite Ec in *; pose proof (zcount_nonneg (bm_get (sb_bitmap (c_slabs c i))) 0 (get_slots g k)); lia].
      right. destruct (proj2 M (conj H1 Z0)); [auto|contradiction].
    - intros [H|H]; [split; [auto|]; intros X; assert (cntof c i = 0) by (apply M; auto); lia|]. split; [apply M; auto|]. intros X. apply (ND3 i); auto. }
  change (Z.of_nat (length ?x)) with (zlen x). rewrite filter_out by auto. unfold nact, nslabs, D, A. change (zlen (filter (slabb g) (zrange 0 (c_mcount c)))) with (zcount (slabb g) 0 (c_mcount c)).
  rewrite slabb_count by auto. unfold zlen. rewrite app_length. lia.
Qed.
Lemma slabs_fun c n m : slabs_in_use c n -> slabs_in_use c m -> n = m.
Proof.
  intros (l & N & H & ->) (l' & N' & H' & ->). f_equal. apply Permutation_length, NoDup_Permutation; auto. intros i. rewrite H, H'. reflexivity.
Qed.
Lemma slabs_nonneg c n : slabs_in_use c n -> 0 <= n. Proof. intros (l & _ & _ & ->). lia. Qed.

(** ** the sums fit in a word *)
Lemma live_area g t s LL a k p d : linv g t s LL -> hinv g s LL -> class_in g a k -> In (p, d) (live t) -> in_area g s a k p = true -> exists i j, sblk g s a k i j p.
Proof.
  intros LI HI C Hl Ha. pose proof (hi_inv _ _ _ HI) as I. unfold in_area in Ha. pose proof (class_region_lo g s LL [] I a k p C ltac:(lia)) as B. destruct (class_of_addr g s (gi_u _ _ _ _ I) (gi_pl _ _ _ _ I) a k p C B) as [R E].
  destruct (live_block _ _ _ _ _ _ LI Hl) as (n & [(a' & k' & i & j & S & _)|(gd & Hr)] & _ & _ & _).
  - destruct (sblk_loc g s LL [] I _ _ _ _ _ S) as [_ E']. rewrite E in E'. injection E' as <- <-. eauto.
  - exfalso. pose proof (region_p g s LL [] I _ Hr) as (S & _). cbn [rg_p rg_size] in *. pose proof (region_not_slab g s LL [] I _ Hr p ltac:(cbn; lia)) as X. congruence.
Qed.
Lemma spans_fit w lo hi (l : list Z) : 0 <= w -> NoDup l -> (forall p, In p l -> lo <= p /\ p + w <= hi) -> (forall p q x, In p l -> In q l -> p <= x < p + w -> q <= x < q + w -> p = q) -> lo <= hi -> zlen l * w <= hi - lo.
Proof.
  intros Hw ND B D LH. assert (zlen (flat_map (fun p => zrange p (p + w)) l) = zlen l * w) as E.
  { clear - Hw. induction l as [|p l IH]; [reflexivity|]. cbn [flat_map]. unfold zlen in *. rewrite app_length. cbn [length]. pose proof (zrange_zlen p (p + w)) as X. unfold zlen in X. lia. }
  assert (NoDup (flat_map (fun p => zrange p (p + w)) l)) as NF.
  { clear E B. induction l as [|p l IH]; [constructor|]. cbn [flat_map]. inversion ND as [|? ? N1 N2]; subst. apply NoDup_app_inv. split; [apply zrange_NoDup|]. split.
    - apply IH; auto. intros a b x Ha Hb. apply D; right; auto.
    - intros x Hx Hf. apply in_flat_map in Hf. destruct Hf as (q & Hq & Hxq). apply in_zrange in Hx. apply in_zrange in Hxq. assert (p = q) by (apply (D p q x); [left; auto|right; auto|lia|lia]). subst. contradiction. }
  pose proof (NoDup_incl_length NF (l' := zrange lo hi)) as L. pose proof (zrange_zlen lo hi) as X. unfold zlen in *. rewrite <- E. assert (incl (flat_map (fun p => zrange p (p + w)) l) (zrange lo hi)) as IN; [|specialize (L IN); lia].
  intros x Hx. apply in_flat_map in Hx. destruct Hx as (p & Hp & Hx). apply in_zrange in Hx. apply in_zrange. specialize (B p Hp). lia.
Qed.
Lemma live_fits g t s LL a k : linv g t s LL -> hinv g s LL -> class_in g a k -> 0 <= live_in g s a k t * slot_size g k <= CLASS_REGION_SIZE g.
Proof.
  intros LI HI C. pose proof (hi_inv _ _ _ HI) as I. pose proof (class_facts_all g k (proj2 C)) as []. split; [apply Z.mul_nonneg_nonneg; unfold live_in, count; lia|].
  unfold live_in, count. pose proof (ucfg_of g (gi_u _ _ _ _ I)) as [].
  pose proof (spans_fit (slot_size g k) (c_start (st_cls s a k)) (c_start (st_cls s a k) + CLASS_REGION_SIZE g) (filter (fun p => in_area g s a k p) (map fst (live t)))) as X.
  assert (length (filter (fun p => in_area g s a k p) (map fst (live t))) = length (filter (fun b : Z * op => in_area g s a k (fst b)) (live t))) as EL.
  { clear. induction (live t) as [|[p c] l IH]; [reflexivity|]. cbn [map fst filter]. destruct (in_area g s a k p); cbn [length]; congruence. }
  unfold zlen in X. rewrite EL in X.
  assert (forall p, In p (filter (fun p => in_area g s a k p) (map fst (live t))) -> exists i j, sblk g s a k i j p) as SB.
  { intros p Hp. apply filter_In in Hp. destruct Hp as [Hp Ha]. apply in_map_iff in Hp. destruct Hp as ([q d] & E & Hp). cbn in E. subst q. eapply live_area; eauto. }
  assert (forall y, y <= c_start (st_cls s a k) + CLASS_REGION_SIZE g - c_start (st_cls s a k) -> y <= CLASS_REGION_SIZE g) as Y by (intros; lia). apply Y. clear Y. apply X.
  - lia.
  - apply NoDup_filter, (li_nd _ _ _ _ LI).
  - intros p Hp. destruct (SB p Hp) as (i & j & (_ & Hj & Hg & ->)). destruct (slot_info g s LL [] I a k i j C Hj (granted_used _ _ _ Hg)) as (_ & _ & B1 & B2). lia.
  - intros p q x Hp Hq Hx Hx'. destruct (SB p Hp) as (i & j & S). destruct (SB q Hq) as (i' & j' & S'). destruct (sblk_apart g s LL [] I _ _ _ _ _ _ _ _ _ _ _ S S' Hx Hx') as (_ & _ & -> & ->).
    destruct S as (_ & _ & _ & ->), S' as (_ & _ & _ & ->). reflexivity.
  - lia.
Qed.
Lemma nact_bound g k o c E F : cinvL g k o c E F -> 0 <= k < N_SIZE_CLASSES g -> nact g c F * slab_size_of g k <= 2 ^ 41.
Proof.
  intros (P & I & _) Hk. pose proof (ci_geom _ _ _ _ _ _ _ _ _ I) as G. pose proof (ci_meta _ _ _ _ _ _ _ _ _ I) as []. pose proof (class_facts_all g k Hk) as []. pose proof (ucfg_of g (ge_u _ _ _ G)) as [].
  pose proof (meta_max_bounds g k _ G) as [M1 M2]. assert (nact g c F <= get_metadata_max g (slab_size_of g k) + 1) as B.
  { unfold nact, nslabs. pose proof (zlen_nonneg F). pose proof (zlen_nonneg (somes (c_fq c))). assert (0 <= c_mcount c / (GUARD_SLABS_INTERVAL g + 1)) by (apply Z.div_pos; lia). lia. }
  change (2 ^ 41) with 2199023255552. nia.
Qed.

(** ** what the counters are *)
Record accounted (g : config) (s : state) (t : trace) (a k n : Z) : Prop := {
  ac_nm : c_nmalloc (st_cls s a k) = mallocs_in g s a k t mod 2 ^ 64;
  ac_nd : c_ndalloc (st_cls s a k) = frees_in g s a k t mod 2 ^ 64;
  ac_al : c_allocated (st_cls s a k) = live_in g s a k t * slot_size g k;
  ac_sl : slabs_in_use (st_cls s a k) n;
  ac_sa : c_slab_allocated (st_cls s a k) = n * slab_bytes g k;
  ac_b1 : 0 <= live_in g s a k t * slot_size g k <= 2 ^ 41;
  ac_b2 : 0 <= n * slab_bytes g k <= 2 ^ 41
}.
Lemma history_accounted g W o t s a k : usable_config g = true -> history g W o t s -> is_init s = true -> STATS g = true -> exists_class g a k -> exists n, accounted g s t a k n.
Proof.
  intros U H Hi S C. destruct (history_hinv _ _ _ _ _ U H Hi) as (LL & LI & HI). destruct (gclass g s LL [] (hi_inv _ _ _ HI) a k C) as (E & F & CI). exists (nact g (st_cls s a k) F).
  pose proof (ucfg_of g U) as []. destruct (history_counted _ _ _ _ _ _ _ U H Hi C) as [CT LV]. destruct (CT S) as (C1 & C2 & C3).
  pose proof (live_fits _ _ _ _ _ _ LI HI C) as LF. pose proof (nact_bound _ _ _ _ _ _ CI (proj2 C)) as NB. pose proof (slabs_counted _ _ _ _ _ _ (proj2 C) ltac:(lia) CI) as SU. pose proof (slabs_nonneg _ _ SU) as N0.
  pose proof (class_facts_all g k (proj2 C)) as [].
  constructor.
  - exact C1.
  - exact C2.
  - rewrite C3, <- LV, Z.mul_comm. apply w64_small. change (2 ^ 64) with 18446744073709551616. lia.
  - exact SU.
  - destruct CI as (P & _ & ST). rewrite (ST S), (slab_bytes_eq g k (proj2 C)), Z.mul_comm. apply w64_small. split; [apply Z.mul_nonneg_nonneg; lia|]. change (2 ^ 41) with 2199023255552 in NB. change (2 ^ 64) with 18446744073709551616. lia.
  - change (2 ^ 41) with 2199023255552. lia.
  - rewrite (slab_bytes_eq g k (proj2 C)). split; [apply Z.mul_nonneg_nonneg; lia|auto].
Qed.

(** ** the functions *)
Lemma unchanged_refl s : unchanged s s. Proof. repeat split. Qed.
Lemma read_class_run g a k s s1 : exists_class g a k -> unchanged s s1 ->
  exists s2, run (read_class g a k) s1 = Ok ((c_nmalloc (st_cls s a k), c_ndalloc (st_cls s a k), c_slab_allocated (st_cls s a k), c_allocated (st_cls s a k)), s2) /\ unchanged s s2.
Proof.
  intros [Ca Ck] (U1 & U2 & U3 & U4 & U5 & U6 & U7 & U8). unfold read_class, act. cbn [run]. unfold on_class. replace (in_range a 0 (N_ARENA g - 1) && in_range k 0 (N_SIZE_CLASSES g - 1)) with true by (unfold in_range; lia).
  unfold zoom, gets, bind, ret. cbn. rewrite U2. eexists. split; [reflexivity|]. unfold unchanged. cbn. repeat split; auto. intros a' k'. destruct (Z.eqb_spec a' a), (Z.eqb_spec k' k); cbn; subst; auto.
Qed.
Lemma read_large_run s s1 : unchanged s s1 -> exists s2, run read_large s1 = Ok (ra_allocated (st_ra s), s2) /\ unchanged s s2.
Proof.
  intros (U1 & U2 & U3 & U4 & U5 & U6 & U7 & U8). unfold read_large, act. cbn [run]. unfold on_ra, zoom, gets, bind, ret. cbn. rewrite U3. eexists. split; [reflexivity|]. unfold unchanged. cbn. repeat split; auto.
Qed.
Lemma total_app l l' : total (l ++ l') = total l + total l'.
Proof. induction l; cbn; [reflexivity|]. unfold total in *. cbn. lia. Qed.
Lemma total_bound l b : (forall x, In x l -> 0 <= x <= b) -> 0 <= total l <= zlen l * b.
Proof.
  induction l as [|x l IH]; intros H; [cbn; lia|]. pose proof (H x (or_introl eq_refl)). specialize (IH (fun y Y => H y (or_intror Y))). unfold total in *. cbn [fold_right]. rewrite zlen_cons. lia.
Qed.
Lemma total_flat {A B} (f : A -> list B) (v : B -> Z) l : total (map v (flat_map f l)) = total (map (fun x => total (map v (f x))) l).
Proof. induction l as [|x l IH]; [reflexivity|]. cbn [flat_map map]. rewrite map_app, total_app, IH. reflexivity. Qed.
Definition tracked (g : config) (s : state) (t : trace) (N : Z -> Z -> Z) : Prop := forall a k, exists_class g a k -> accounted g s t a k (N a k).
Lemma counts_tracked g W o t s N : usable_config g = true -> history g W o t s -> is_init s = true -> STATS g = true -> slab_counts g s N -> tracked g s t N.
Proof.
  intros U H Hi S SC a k C. destruct (history_accounted _ _ _ _ _ _ _ U H Hi S C) as (n & A). rewrite <- (slabs_fun _ _ _ (ac_sl _ _ _ _ _ _ A) (SC a k C)). exact A.
Qed.
Lemma all_classes_in g a k : In (a, k) (all_classes g) <-> exists_class g a k.
Proof. unfold all_classes. rewrite in_flat_map. split; [intros (x & Hx & H); apply in_map_iff in H; destruct H as (y & [= <- <-] & Hy); apply in_zrange in Hx; apply in_zrange in Hy; split; auto|]. intros [H1 H2]. exists a. split; [apply in_zrange; auto|]. apply in_map, in_zrange. auto. Qed.
Lemma pick (P : Z -> Z -> Z -> Prop) l : (forall a k, In (a, k) l -> exists n, P a k n) -> exists N : Z -> Z -> Z, forall a k, In (a, k) l -> P a k (N a k).
Proof.
  induction l as [|[a k] l IH]; intros H; [exists (fun _ _ => 0); intros a k []|]. destruct (IH (fun a k Y => H a k (or_intror Y))) as (N & HN). destruct (H a k (or_introl eq_refl)) as (n & Hn).
  exists (fun a' k' => if (a' =? a) && (k' =? k) then n else N a' k'). intros a' k' HI. destruct (Z.eqb_spec a' a), (Z.eqb_spec k' k); cbn; subst; auto; destruct HI as [HI|HI]; try congruence; auto.
Qed.
Lemma counts_exist g W o t s : usable_config g = true -> history g W o t s -> is_init s = true -> exists N, slab_counts g s N.
Proof.
  intros U H Hi. destruct (history_hinv _ _ _ _ _ U H Hi) as (LL & LI & HI). pose proof (ucfg_of g U) as [].
  destruct (pick (fun a k n => slabs_in_use (st_cls s a k) n) (all_classes g)) as (N & HN).
  - intros a k C. apply all_classes_in in C. destruct (gclass g s LL [] (hi_inv _ _ _ HI) a k C) as (E & F & CI). exists (nact g (st_cls s a k) F). apply (slabs_counted _ _ _ _ _ _ (proj2 C) ltac:(lia) CI).
  - exists N. intros a k C. apply HN, all_classes_in, C.
Qed.
Lemma sum_classes_run g s t N l : tracked g s t N -> (forall a k, In (a, k) l -> exists_class g a k) -> forall s1 h u, unchanged s s1 ->
  exists s2, run (sum_classes g l (w64 h) (w64 u)) s1 = Ok ((w64 (h + total (map (fun '(a, k) => class_mapped g N a k) l)), w64 (u + total (map (fun '(a, k) => class_used g s t a k) l))), s2) /\ unchanged s s2.
Proof.
  intros TR. induction l as [|[a k] l IH]; intros HC s1 h u US.
  - exists s1. cbn. rewrite !Z.add_0_r. auto.
  - cbn [sum_classes]. destruct (read_class_run g a k s s1 (HC a k (or_introl eq_refl)) US) as (s2 & R & US2). rewrite run_pbind. unfold bind. rewrite R. cbn beta iota. rewrite !w64_add.
    destruct (IH (fun a k Y => HC a k (or_intror Y)) s2 (h + c_slab_allocated (st_cls s a k)) (u + c_allocated (st_cls s a k)) US2) as (s3 & R3 & US3). exists s3. split; [|exact US3]. rewrite R3. pose proof (TR a k (HC a k (or_introl eq_refl))) as [].
    rewrite ac_al0, ac_sa0. unfold total. cbn [map fold_right]. do 3 f_equal; f_equal; unfold class_mapped, class_used; lia.
Qed.
Lemma run_get {A} s (k : state -> prog state A) : run (do! x := act get in k x) s = run (k s) s. Proof. rewrite run_pbind. reflexivity. Qed.
Lemma run_bind {A B} (p : prog state A) (k : A -> prog state B) s a s2 : run p s = Ok (a, s2) -> run (pbind p k) s = run (k a) s2.
Proof. intros E. rewrite run_pbind. unfold bind. rewrite E. reflexivity. Qed.
Lemma classes_few g : 0 <= N_SIZE_CLASSES g <= 49. Proof. pose proof (N_SIZE_CLASSES_bound g). lia. Qed.
Lemma arena_fits g s t N a : usable_config g = true -> tracked g s t N -> 0 <= a < N_ARENA g -> 0 <= arena_used g s t a <= 49 * 2 ^ 41 /\ 0 <= arena_mapped g N a <= 49 * 2 ^ 41.
Proof.
  intros U TR Ha. pose proof (classes_few g) as NC. change (2 ^ 41) with 2199023255552. unfold arena_used, arena_mapped.
  assert (forall f : Z -> Z, (forall k, 0 <= k < N_SIZE_CLASSES g -> 0 <= f k <= 2199023255552) -> 0 <= total (map f (zrange 0 (N_SIZE_CLASSES g))) <= 49 * 2199023255552) as X.
  { intros f Hf. pose proof (total_bound (map f (zrange 0 (N_SIZE_CLASSES g))) 2199023255552) as B. pose proof (zrange_zlen 0 (N_SIZE_CLASSES g)) as L. unfold zlen in *. rewrite map_length in B.
    assert (forall x, In x (map f (zrange 0 (N_SIZE_CLASSES g))) -> 0 <= x <= 2199023255552) as Y by (intros x Hx; apply in_map_iff in Hx; destruct Hx as (k & <- & Hk); apply in_zrange in Hk; auto). specialize (B Y). lia. }
  split; apply X; intros k Hk; pose proof (TR a k (conj Ha Hk)) as []; assumption.
Qed.
Lemma arena_classes g a : 0 <= a < N_ARENA g -> forall a' k, In (a', k) (map (fun k => (a, k)) (zrange 0 (N_SIZE_CLASSES g))) -> exists_class g a' k.
Proof. intros Ha a' k H. apply in_map_iff in H. destruct H as (k' & [= <- <-] & Hk). apply in_zrange in Hk. split; auto. Qed.
Lemma info_arena_l g s t N a : usable_config g = true -> tracked g s t N -> is_init s = true -> STATS g = true -> 0 <= a < N_ARENA g ->
  reports s (h_mallinfo_arena_info g a) (mkInfo (arena_mapped g N a) 0 0 0 (arena_used g s t a) 0).
Proof.
  intros U TR Hi S Ha. destruct (sum_classes_run g s t N _ TR (arena_classes g a Ha) s 0 0 (unchanged_refl s)) as (s2 & R & US). exists s2. split; [|exact US].
  unfold h_mallinfo_arena_info. rewrite S. cbn [negb]. rewrite run_get, Hi. cbn [negb]. replace (a <? N_ARENA g) with true by lia. erewrite run_bind by exact R. cbn [run]. rewrite !map_map. cbn [Z.add].
  destruct (arena_fits g s t N a U TR Ha) as [F1 F2]. change (2 ^ 41) with 2199023255552 in *. fold (arena_used g s t a). unfold ret. 
  change (total (map (fun x => class_mapped g N a x) (zrange 0 (N_SIZE_CLASSES g)))) with (arena_mapped g N a). change (total (map (fun x => class_used g s t a x) (zrange 0 (N_SIZE_CLASSES g)))) with (arena_used g s t a).
  rewrite !w64_small by (change (2 ^ 64) with 18446744073709551616; lia). reflexivity.
Qed.
Lemma info_large_l g s : is_init s = true -> STATS g = true -> reports s (h_mallinfo_arena_info g (N_ARENA g)) (mkInfo (ra_allocated (st_ra s)) 0 (ra_allocated (st_ra s)) 0 0 0).
Proof.
  intros Hi S. destruct (read_large_run s s (unchanged_refl s)) as (s2 & R & US). exists s2. split; [|exact US].
  unfold h_mallinfo_arena_info. rewrite S. cbn [negb]. rewrite run_get, Hi. cbn [negb]. rewrite Z.ltb_irrefl, Z.eqb_refl. erewrite run_bind by exact R. reflexivity.
Qed.
Lemma info_bin_l g s t N a k : tracked g s t N -> is_init s = true -> STATS g = true -> exists_class g a k ->
  reports s (h_mallinfo_bin_info g a k) (mkInfo 0 (class_used g s t a k) (mallocs_in g s a k t mod 2 ^ 64) (frees_in g s a k t mod 2 ^ 64) 0 0).
Proof.
  intros TR Hi S C. destruct (read_class_run g a k s s C (unchanged_refl s)) as (s2 & R & US). exists s2. split; [|exact US]. destruct C as [Ca Ck].
  unfold h_mallinfo_bin_info. rewrite S. cbn [negb]. rewrite run_get, Hi. cbn [negb]. replace ((a <? N_ARENA g) && (k <? N_SIZE_CLASSES g)) with true by lia. erewrite run_bind by exact R. pose proof (TR a k (conj Ca Ck)) as []. rewrite ac_nm0, ac_nd0, ac_al0. reflexivity.
Qed.
Lemma info2_l g s t N : usable_config g = true -> tracked g s t N -> is_init s = true -> STATS g = true ->
  let L := ra_allocated (st_ra s) in
  reports s (h_mallinfo2 g) (mkInfo ((L + heap_mapped g N) mod 2 ^ 64) 0 ((L + heap_used g s t) mod 2 ^ 64) ((heap_mapped g N - heap_used g s t) mod 2 ^ 64) 0 ((L + heap_mapped g N) mod 2 ^ 64)).
Proof.
  intros U TR Hi S L. destruct (read_large_run s s (unchanged_refl s)) as (s1 & R1 & US1). destruct (sum_classes_run g s t N (all_classes g) TR (fun a k => proj1 (all_classes_in g a k)) s1 L L US1) as (s2 & R & US). exists s2. split; [|exact US].
  unfold h_mallinfo2. rewrite S. cbn [negb]. rewrite run_get, Hi. cbn [negb]. erewrite run_bind by exact R1. fold L. cbn [Z.add]. erewrite run_bind by exact R. cbn [run]. unfold ret.
  assert (total (map (fun '(a, k) => class_mapped g N a k) (all_classes g)) = heap_mapped g N) as ->. { unfold all_classes. rewrite total_flat. unfold heap_mapped, arena_mapped. f_equal. apply map_ext. intros a. rewrite map_map. reflexivity. }
  assert (total (map (fun '(a, k) => class_used g s t a k) (all_classes g)) = heap_used g s t) as ->. { unfold all_classes. rewrite total_flat. unfold heap_used, arena_used. f_equal. apply map_ext. intros a. rewrite map_map. reflexivity. }
  f_equal. f_equal. f_equal. unfold w64. rewrite <- Zminus_mod. f_equal. lia.
Qed.
Lemma info_bins_run g s t N a l : tracked g s t N -> (forall k, In k l -> exists_class g a k) -> forall s1, unchanged s s1 ->
  exists s2, run (info_bins g a l) s1 = Ok (filter (fun b => negb (blank_bin b)) (map (row g s t N a) l), s2) /\ unchanged s s2.
Proof.
  intros TR. induction l as [|k l IH]; intros HC s1 US; [exists s1; split; [reflexivity|auto]|].
  cbn [info_bins]. destruct (read_class_run g a k s s1 (HC k (or_introl eq_refl)) US) as (s2 & R & US2). erewrite run_bind by exact R. cbn beta iota. destruct (IH (fun k Y => HC k (or_intror Y)) s2 US2) as (s3 & R3 & US3). exists s3. split; [|exact US3].
  erewrite run_bind by exact R3. cbn [run]. unfold ret. pose proof (TR a k (HC k (or_introl eq_refl))) as []. rewrite ac_nm0, ac_nd0, ac_al0, ac_sa0. cbn [map filter].
  assert (blank_bin (row g s t N a k) = (mallocs_in g s a k t mod 2 ^ 64 =? 0) && (frees_in g s a k t mod 2 ^ 64 =? 0) && (N a k * slab_bytes g k =? 0) && (live_in g s a k t * slot_size g k =? 0)) as -> by reflexivity.
  destruct (_ && _); reflexivity.
Qed.
Lemma info_heaps_run g s t N l : tracked g s t N -> (forall a, In a l -> 0 <= a < N_ARENA g) -> forall s1, unchanged s s1 ->
  exists s2, run (info_heaps g l) s1 = Ok (map (fun a => (a, rows g s t N a)) l, s2) /\ unchanged s s2.
Proof.
  intros TR. induction l as [|a l IH]; intros HC s1 US; [exists s1; split; [reflexivity|auto]|].
  cbn [info_heaps]. destruct (info_bins_run g s t N a (zrange 0 (N_SIZE_CLASSES g)) TR) with (s1 := s1) as (s2 & R & US2); [intros k Hk; apply in_zrange in Hk; split; [apply HC; left; auto|auto]|auto|]. erewrite run_bind by exact R. cbn beta iota.
  destruct (IH (fun k Y => HC k (or_intror Y)) s2 US2) as (s3 & R3 & US3). exists s3. split; [|exact US3]. erewrite run_bind by exact R3. reflexivity.
Qed.
Lemma info_l g s t N : tracked g s t N -> is_init s = true -> STATS g = true ->
  reports s (h_malloc_info g 0) (0, Some (mkReport (map (fun a => (a, rows g s t N a)) (zrange 0 (N_ARENA g))) (Some (ra_allocated (st_ra s))))).
Proof.
  intros TR Hi S. destruct (info_heaps_run g s t N (zrange 0 (N_ARENA g)) TR) with (s1 := s) as (s1 & R1 & US1); [intros a Ha; apply in_zrange in Ha; auto|apply unchanged_refl|]. destruct (read_large_run s s1 US1) as (s2 & R & US). exists s2. split; [|exact US].
  unfold h_malloc_info. cbn [Z.eqb negb]. rewrite run_get, Hi, S. cbn [negb orb]. erewrite run_bind by exact R1. erewrite run_bind by exact R. reflexivity.
Qed.
Lemma info_early_l g s a k : is_init s = false \/ STATS g = false ->
  reports s (h_mallinfo2 g) info_zero /\ reports s (h_mallinfo_arena_info g a) info_zero /\ reports s (h_mallinfo_bin_info g a k) info_zero /\ reports s (h_malloc_info g 0) (0, Some (mkReport [] None)).
Proof.
  intros H. assert (forall b, negb (STATS g) || negb b = true -> b = is_init s -> run (h_mallinfo2 g) s = Ok (info_zero, s) /\ run (h_mallinfo_arena_info g a) s = Ok (info_zero, s) /\ run (h_mallinfo_bin_info g a k) s = Ok (info_zero, s) /\ run (h_malloc_info g 0) s = Ok ((0, Some (mkReport [] None)), s)) as X.
  { intros b E ->. unfold h_mallinfo2, h_mallinfo_arena_info, h_mallinfo_bin_info, h_malloc_info. cbn [Z.eqb negb]. rewrite (run_get s (fun x => if negb (STATS g) || negb (is_init x) then _ else _)), E. destruct (STATS g); cbn [negb orb] in *; rewrite ?run_get, ?E; repeat split. }
  destruct (X (is_init s)) as (X1 & X2 & X3 & X4); [destruct H as [->| ->]; [apply orb_true_r|reflexivity]|reflexivity|].
  repeat split; (exists s; split; [assumption|apply unchanged_refl]).
Qed.
Lemma info_options_l g s options : options <> 0 -> exists s', run (h_malloc_info g options) s = Ok ((-1, None), s') /\ errno (st_os s') = EINVAL.
Proof. intros H. unfold h_malloc_info. replace (options =? 0) with false by lia. cbn [negb]. eexists. split; [reflexivity|reflexivity]. Qed.
