(** Histories seen from one size class: quarantine, cached slabs, accessibility, trimming. *)
From Coq Require Import String ZArith List Bool Lia ZifyBool Permutation.
From Verif Require Import M_Base M_Config M_SizeClass M_Libdivide M_OS M_Random M_Slab M_Region M_Api M_Hist S_SizeClass S_Slab S_Heap S_Class
  P_Base P_Count P_SizeClass P_SizeClass2 P_Libdivide P_Random P_Bitmap P_Bitmap2 P_OS P_Links P_Slab1 P_Slab2 P_Slab3 P_Slab4 P_Slab5 P_Slab6 P_Slab7 P_Slab8 P_Slab9 P_Slab11 P_Path P_Quar
  P_Region P_Heap1 P_Heap2 P_Heap3 P_Heap4 P_Heap5 P_Heap6 P_Heap7 P_Heap8 P_Heap9 P_Heap10 P_Heap11 P_Init P_Api0 P_Api1 P_Api2 P_Api3 P_Api4 P_Api5 P_Api6 P_Api7.
Import ListNotations.
Open Scope Z_scope.
Ltac Zify.zify_post_hook ::= idtac.

(** ** paths *)
Definition evmoves (g : config) (c : size_class) (e : event) : list clab := moves g c (evrm (e_op e) (e_ans e)) (evadd (e_op e) (e_ans e) 0).
Lemma evmoves_any g c tid op an m : moves g c (evrm op an) (evadd op an m) = evmoves g c (mkEv tid op an).
Proof. unfold evmoves, moves. cbn [e_op e_ans]. unfold evadd. destruct an; auto. destruct (allocates op); reflexivity. Qed.
Lemma evmoves_store g c e x : stores (e_op e) = Some x -> evmoves g c e = [].
Proof. destruct e as [tid op an]. cbn. destruct op; try discriminate. intros _. unfold evmoves. cbn. destruct an; reflexivity. Qed.
Definition labs (g : config) (c : size_class) (l : list event) : list clab := flat_map (evmoves g c) (rev l).
Lemma labs_cons g c e l : labs g c (e :: l) = labs g c l ++ evmoves g c e.
Proof. unfold labs. cbn [rev]. rewrite flat_map_app. cbn. rewrite app_nil_r. reflexivity. Qed.
Lemma evmoves_ext g c c' e : c_start c' = c_start c -> evmoves g c' e = evmoves g c e. Proof. apply moves_ext. Qed.
Lemma labs_ext g c c' l : c_start c' = c_start c -> labs g c' l = labs g c l.
Proof. intros E. unfold labs. apply flat_map_ext. intros e. apply evmoves_ext; auto. Qed.
Lemma step_path g t s LL tid c a s' LL' ar k : stepped g t s LL tid c a s' LL' -> class_in g ar k ->
  cpath g k (st_os s) (st_cls s ar k) (evmoves g (st_cls s' ar k) (mkEv tid c a)) (st_os s') (st_cls s' ar k).
Proof.
  intros SP C. destruct (stores c) as [x|] eqn:S.
  - destruct (sp_store _ _ _ _ _ _ _ _ _ SP x S) as (_ & E & L & _). rewrite (evmoves_store g _ (mkEv tid c a) x S), E. apply cpath_stay; auto.
  - destruct (sp_cls _ _ _ _ _ _ _ _ _ SP S) as (m & H). rewrite <- (evmoves_any g _ tid c a m). apply (hc_path _ _ _ _ _ H); auto.
Qed.
Lemma cpath_ls_zero g k o c ls o' c' : cpath g k o c ls o' c' -> c_start c' = 0 -> ls = []. Proof. intros H E. apply (cpath_zero _ _ _ _ _ _ _ H E). Qed.
(** labels computed with the class at the end *)
Lemma path_join g k o c l o1 c1 e o2 c2 : cpath g k o c (labs g c1 l) o1 c1 -> cpath g k o1 c1 (evmoves g c2 e) o2 c2 -> cpath g k o c (labs g c2 (e :: l)) o2 c2 \/ (c_start c1 = 0 /\ labs g c1 l = []).
Proof.
  intros H1 H2. destruct (Z.eq_dec (c_start c1) 0) as [E|E]; [right; split; [auto|]; eapply cpath_ls_zero; eauto|left].
  pose proof (cpath_start _ _ _ _ _ _ _ H2 E) as Es. rewrite labs_cons. eapply cpath_app; [|exact H2]. rewrite (labs_ext g c1 c2 l Es). exact H1.
Qed.
Lemma cont_path g W o t s t' s' ar k : usable_config g = true -> history g W o t s -> is_init s = true -> continues g W t s t' s' -> class_in g ar k ->
  cpath g k (st_os s) (st_cls s ar k) (labs g (st_cls s ar k) (since t t')) (st_os s') (st_cls s' ar k) /\ c_start (st_cls s' ar k) = c_start (st_cls s ar k).
Proof.
  intros U H Hi K C. assert (c_start (st_cls s ar k) <> 0) as N0. { destruct (history_hinv _ _ _ _ _ U H Hi) as (LL & _ & HI). destruct (gclass g s LL [] (hi_inv _ _ _ HI) ar k C) as (E & F & P & Iv & _). pose proof (ge_start _ _ _ (ci_geom _ _ _ _ _ _ _ _ _ Iv)). lia. }
  induction K as [|t1 s1 tid c a s2 K IH Ca].
  - rewrite since_here. split; [apply cp_refl|auto].
  - destruct IH as [P1 E1]. destruct (history_linv _ _ _ _ _ U (cont_history _ _ _ _ _ _ _ H K)) as (LL & LI). destruct (calls_step _ _ _ _ _ _ _ _ _ LI Ca) as (LL' & SP).
    pose proof (step_path _ _ _ _ _ _ _ _ _ ar k SP C) as P2. pose proof (cpath_start _ _ _ _ _ _ _ P2 ltac:(congruence)) as E2. split; [|congruence].
    rewrite since_call by (eapply cont_len; eauto). rewrite labs_cons. eapply cpath_app; [exact P1|]. rewrite <- (evmoves_ext g (st_cls s ar k) (st_cls s2 ar k)) by congruence. exact P2.
Qed.
Lemma boot_cls g o ar k : st_cls (boot g o) ar k = class_zero. Proof. reflexivity. Qed.
Lemma history_path g W o t s ar k : usable_config g = true -> history g W o t s -> class_in g ar k -> exists ls, cpath g k (st_os (boot g o)) class_zero ls (st_os s) (st_cls s ar k).
Proof.
  intros U H C. induction H as [|t s tid c a s' H (ls & IH) TC WD PM ST E]; [exists []; apply cp_refl|].
  destruct (history_linv _ _ _ _ _ U H) as (LL & LI). destruct (history_step _ _ _ _ _ _ _ _ _ _ U H LI TC WD PM E) as (LL' & SP).
  eexists. eapply cpath_app; [exact IH|]. apply (step_path _ _ _ _ _ _ _ _ _ ar k SP C).
Qed.
Lemma history_later g W o t s : usable_config g = true -> history g W o t s -> later (st_os (boot g o)) (st_os s).
Proof. intros U H. destruct (history_path g W o t s 0 0 U H) as (ls & P); [|eapply cpath_later; eauto]. pose proof (ucfg_of g U) as []. pose proof (N_SIZE_CLASSES_bound g). split; lia. Qed.

(** ** the spec's words *)
Lemma slab_bytes_eq g k : 0 <= k < N_SIZE_CLASSES g -> slab_bytes g k = slab_size_of g k.
Proof.
  intros Hk. pose proof (class_facts_all g k Hk) as []. unfold slab_bytes, page_up, slab_size_of, get_slab_size. assert (0 <= get_slots g k * slot_size g k <= 256 * 131072) as B by (split; [apply Z.mul_nonneg_nonneg; lia|apply Z.mul_le_mono_nonneg; lia]).
  rewrite w64_small by (change (2 ^ 64) with 18446744073709551616; lia). rewrite page_align_small by (change (2 ^ 64) with 18446744073709551616; lia). reflexivity.
Qed.
Lemma exists_class_in g a k : exists_class g a k <-> class_in g a k. Proof. reflexivity. Qed.
Lemma holds_cnt g k c i : 0 <= k < N_SIZE_CLASSES g -> slab_ok (get_slots g k) (c_slabs c i) -> holds c i <-> 0 < cntof c i.
Proof.
  intros Hk SO. pose proof (class_facts_all g k Hk) as []. pose proof (so_cnt _ _ SO) as E. unfold cntof. rewrite E. split.
  - intros (j & Hj & O). rewrite occupied_get in O by auto. destruct (Z_lt_le_dec j (get_slots g k)); [eapply zcount_pos; [|exact O]; lia|]. rewrite (so_hi _ _ SO j) in O by lia. discriminate.
  - intros H. unfold zcount in H. destruct (filter (bm_get (sb_bitmap (c_slabs c i))) (zrange 0 (get_slots g k))) as [|j l] eqn:X; [cbn in H; lia|].
    assert (In j (j :: l)) as J by (left; auto). rewrite <- X in J. apply filter_In in J. destruct J as [J B]. apply in_zrange in J.
    exists j. split; [lia|]. rewrite occupied_get by lia. exact B.
Qed.
Lemma follows_sll nx l : sll nx l -> follows nx (hd_error l) l.
Proof. induction l as [|i l IH]; cbn; intros H; [constructor|]. destruct H as [H1 H2]. constructor. rewrite H1. auto. Qed.
Lemma follows_fun nx h l : follows nx h l -> forall l', follows nx h l' -> l' = l.
Proof. induction 1 as [|i l H IH]; intros l' H'; inversion H'; subst; [auto|]. f_equal. auto. Qed.
Lemma empty_slabs_E g k o c E F : cinvL g k o c E F -> empty_slabs c E.
Proof. intros (P & I & _). destruct (ci_link _ _ _ _ _ _ _ _ _ I). unfold empty_slabs. rewrite lk_E. apply follows_sll. exact lk_Es. Qed.
Lemma purged_slabs_F g k o c E F : cinvL g k o c E F -> purged_slabs c F.
Proof. intros (P & I & _). destruct (ci_link _ _ _ _ _ _ _ _ _ I). unfold purged_slabs. rewrite lk_F. apply follows_sll. exact lk_Fs. Qed.
Lemma cached_E g k o c E F i : cinvL g k o c E F -> cached c i <-> In i E.
Proof.
  intros CI. pose proof (empty_slabs_E _ _ _ _ _ _ CI) as S. split.
  - intros (l & H & HI). rewrite <- (follows_fun _ _ _ S _ H). exact HI.
  - intros H. exists E. auto.
Qed.

(** ** C44 *)
Lemma C44_l g W o t s a k i x : usable_config g = true -> history g W o t s -> is_init s = true -> exists_class g a k -> in_slab_no g s a k i x -> k <> 0 ->
  (accessible s x <-> holds (st_cls s a k) i \/ cached (st_cls s a k) i).
Proof.
  intros U H Hi C [Hx Hx2] K0. destruct (history_hinv _ _ _ _ _ U H Hi) as (LL & _ & HI). rewrite (slab_bytes_eq g k (proj2 C)) in Hx2.
  destruct (class_page g s LL a k x HI C ltac:(cbv zeta; lia)) as (E & (F & CI) & R). cbv zeta in R. pose proof CI as (P & I & _). pose proof (ci_geom _ _ _ _ _ _ _ _ _ I) as G.
  assert (i = (x - c_start (st_cls s a k)) / slab_size_of g k) as Ei by (apply (slab_at_idx g k _ i x G); unfold slabp; lia). rewrite <- Ei in R.
  rewrite (holds_cnt g k _ i (proj2 C) (ci_slabs _ _ _ _ _ _ _ _ _ I i)), (cached_E _ _ _ _ _ _ i CI). unfold accessible. replace (k =? 0) with false in R by lia. unfold active in R.
  destruct R as [(A & _ & ->)|(A & -> & _)].
  - split; [intros _|auto]. destruct A as [A|[A|A]]; [auto|auto|discriminate].
  - split; [discriminate|]. intros B. elim A. destruct B; auto.
Qed.
Lemma C44_zero_l g W o t s a k i x : usable_config g = true -> history g W o t s -> is_init s = true -> exists_class g a k -> in_slab_no g s a k i x -> k <> 0 ->
  ~ accessible s x -> inaccessible s x /\ content s x = 0.
Proof.
  intros U H Hi C [Hx Hx2] K0 NA. destruct (history_hinv _ _ _ _ _ U H Hi) as (LL & _ & HI).
  destruct (class_page g s LL a k x HI C ltac:(cbv zeta; lia)) as (E & _ & [(_ & _ & R)|(_ & R1 & R2)]); [|split; auto].
  elim NA. unfold accessible. rewrite R. replace (k =? 0) with false by lia. reflexivity.
Qed.
Lemma C44_else_l g W o t s x : usable_config g = true -> history g W o t s -> is_init s = true -> in_small_area s x -> (forall a k i, exists_class g a k -> k <> 0 -> ~ in_slab_no g s a k i x) -> inaccessible s x.
Proof.
  intros U H Hi Hx NA. destruct (history_hinv _ _ _ _ _ U H Hi) as (LL & _ & HI). assert (in_slab_region x s = true) as L by (unfold in_slab_region, in_small_area in *; lia).
  pose proof (hi_inv _ _ _ HI) as I. destruct (addr_class g s (gi_u _ _ _ _ I) (gi_pl _ _ _ _ I) x L) as (a & k & E & Ck & B).
  destruct (Z.eq_dec k 0) as [->|K0]; [apply (zero_area g s LL x HI L); rewrite E; reflexivity|].
  apply (gap_area g s LL x HI L). intros a' k' C' H'. destruct (class_apart g s LL a k a' k' x HI Ck C' B H') as [-> ->].
  pose proof (class_facts_all g k (proj2 Ck)) as []. apply (NA a k ((x - c_start (st_cls s a k)) / slab_size_of g k) Ck K0). split; [auto|]. rewrite (slab_bytes_eq g k (proj2 Ck)).
  pose proof (Z.div_mod (x - c_start (st_cls s a k)) (slab_size_of g k) ltac:(lia)). pose proof (Z.mod_pos_bound (x - c_start (st_cls s a k)) (slab_size_of g k) ltac:(lia)). lia.
Qed.

(** ** C41 *)
Lemma C41_l g W o t s a k l : usable_config g = true -> history g W o t s -> is_init s = true -> exists_class g a k -> empty_slabs (st_cls s a k) l ->
  slab_bytes g k * Z.of_nat (length l) <= cache_limit g \/ kernel_refused (boot g o) s.
Proof.
  intros U H Hi C Hl. destruct (history_hinv _ _ _ _ _ U H Hi) as (LL & _ & HI). destruct (gclass g s LL [] (hi_inv _ _ _ HI) a k C) as (E & F & CI). rewrite (slab_bytes_eq g k (proj2 C)).
  rewrite (follows_fun _ _ _ (empty_slabs_E _ _ _ _ _ _ CI) _ Hl). destruct (history_path g W o t s a k U H C) as (ls & P). pose proof (path_within _ _ _ _ _ _ _ P (or_introl eq_refl) _ _ _ CI) as B.
  unfold max_empty_slabs_total, max_slab_size_class in B. unfold cache_limit. destruct (EXTENDED_SIZE_CLASSES g); exact B.
Qed.

(** ** C09 *)
Lemma clz_log2 n : 0 < n < 2 ^ 64 -> clz64 n = 63 - Z.log2 n.
Proof.
  intros H. unfold clz64. replace (n =? 0) with false by lia. lia.
Qed.
Lemma queue_length_eq g k : 0 <= k < N_SIZE_CLASSES g -> queue_length g (slot_size g k) = slab_quarantine_queue_length g (slot_size g k).
Proof.
  intros Hk. pose proof (class_facts_all g k Hk) as []. unfold queue_length, slab_quarantine_queue_length. rewrite Z.shiftl_mul_pow2 by lia. f_equal. f_equal. unfold quarantine_shift.
  rewrite clz_log2 by (change (2 ^ 64) with 18446744073709551616; lia). unfold MAX_SLAB_SIZE_CLASS_SHIFT, max_slab_size_class. destruct (EXTENDED_SIZE_CLASSES g).
  - change (Z.log2 131072) with 17. lia.
  - change (Z.log2 16384) with 14. lia.
Qed.
Lemma freed_by_moves g c e q : In (LF q) (evmoves g c e) -> freed_by e = Some q /\ inb g c q = true.
Proof.
  unfold evmoves, moves. rewrite in_app_iff. unfold lift_ptr. intros [H|H].
  { destruct (addp _) as [x|]; [|destruct H]. destruct (_ && _) in H; [|destruct H]. destruct H as [H|[]]. discriminate. }
  unfold freed_by. destruct e as [tid op an]. cbn [e_op e_ans] in *. destruct (evrm op an) as [x|] eqn:Er; [|destruct H]. destruct (_ && _) eqn:B in H; [|destruct H]. destruct H as [[= ->]|[]]. apply andb_prop in B. destruct B as [B1 B2]. split; [|auto].
  destruct op; cbn in Er; try discriminate; destruct an; try discriminate; try (destruct (Z.eqb_spec p 0); [discriminate|exact Er]).
  destruct (Z.eqb_spec p 0) as [|N]; [discriminate|]. injection Er as ->. cbn in B2. destruct (Z.eqb_spec p0 q) as [->|]; [|reflexivity]. rewrite Z.eqb_refl in B2. discriminate.
Qed.
Lemma moves_freed g c e q : freed_by e = Some q -> inb g c q = true -> exists l, evmoves g c e = l ++ [LF q] /\ nfree l = 0.
Proof.
  unfold evmoves, moves. destruct e as [tid op an]. unfold freed_by. cbn [e_op e_ans]. intros H B.
  assert (evrm op an = Some q /\ same_ptr (Some q) (addp (evadd op an 0)) = false) as [E S].
  { destruct op; try discriminate; destruct an; try discriminate; cbn.
    - destruct (Z.eqb_spec p 0); [discriminate|]. destruct (Z.eqb_spec p0 p); [discriminate|]. injection H as ->. split; [auto|]. cbn. lia.
    - destruct (Z.eqb_spec p 0); [discriminate|]. injection H as ->. auto.
    - destruct (Z.eqb_spec p 0); [discriminate|]. injection H as ->. auto. }
  rewrite E. exists (lift_ptr g c (addp (evadd op an 0)) (Some q) LA). split; [f_equal; unfold lift_ptr; rewrite B, S; reflexivity|]. unfold lift_ptr. destruct (addp _); [|reflexivity]. destruct (_ && _); reflexivity.
Qed.
Lemma moves_handed g c e q : handed_out e = Some q -> inb g c q = true -> exists l, evmoves g c e = LA q :: l.
Proof.
  unfold evmoves, moves. destruct e as [tid op an]. unfold handed_out. cbn [e_op e_ans]. intros H B.
  assert (addp (evadd op an 0) = Some q /\ same_ptr (Some q) (evrm op an) = false) as [E S].
  { destruct op; try discriminate; destruct an; try discriminate; cbn in *; try (injection H as ->; auto).
    destruct (Z.eqb_spec p0 p); [discriminate|]. injection H as ->. split; [auto|]. destruct (Z.eqb_spec p 0); [reflexivity|]. cbn. lia. }
  rewrite E. unfold lift_ptr at 1. rewrite B, S. cbn. eauto.
Qed.
Lemma inb_same g s LL a k p q : hinv g s LL -> class_in g a k -> inb g (st_cls s a k) p = true -> inb g (st_cls s a k) q = true -> same_class g s p q = true.
Proof.
  intros HI C Hp Hq. pose proof (hi_inv _ _ _ HI) as I. unfold inb in *. pose proof (class_region_lo g s LL [] I a k p C ltac:(lia)) as Lp. pose proof (class_region_lo g s LL [] I a k q C ltac:(lia)) as Lq.
  destruct (class_of_addr g s (gi_u _ _ _ _ I) (gi_pl _ _ _ _ I) a k q C Lq) as [Rq _]. unfold in_slab_region in Rq. unfold same_class.
  destruct (real_facts g (gi_u _ _ _ _ I)) as (R1 & R2 & R3).
  assert (forall x, class_lo g s a k <= x < class_lo g s a k + REAL_CLASS_REGION_SIZE g -> (x - st_start s) / (2 * CLASS_REGION_SIZE g) = a * N_SIZE_CLASSES g + k) as D.
  { intros x Hx. symmetry. apply Z.div_unique with (x - class_lo g s a k); unfold class_lo, ARENA_SIZE, REAL_CLASS_REGION_SIZE in *; lia. }
  rewrite (D p Lp), (D q Lq), Z.eqb_refl. lia.
Qed.
Lemma nfree_labs g s LL a k p l : hinv g s LL -> class_in g a k -> inb g (st_cls s a k) p = true -> nfree (labs g (st_cls s a k) l) <= Z.of_nat (frees_like g s p l).
Proof.
  intros HI C Hp. induction l as [|e l IH]; [cbn; lia|]. rewrite labs_cons, nfree_app. unfold frees_like in *. cbn [filter].
  assert (nfree (evmoves g (st_cls s a k) e) <= (if match freed_by e with Some q => same_class g s p q | None => false end then 1 else 0)) as B; [|destruct (match freed_by e with Some _ => _ | None => _ end); cbn [length]; lia].
  destruct (freed_by e) as [q|] eqn:Ef.
  - destruct (inb g (st_cls s a k) q) eqn:Hq.
    + rewrite (inb_same g s LL a k p q HI C Hp Hq). destruct (moves_freed g _ e q Ef Hq) as (l' & -> & Z). rewrite nfree_app, Z. cbn. lia.
    + assert (nfree (evmoves g (st_cls s a k) e) = 0); [|destruct (same_class g s p q); lia].
      unfold nfree. destruct (filter is_free (evmoves g (st_cls s a k) e)) as [|x y] eqn:X; [reflexivity|]. exfalso. assert (In x (x :: y)) as J by (left; auto). rewrite <- X in J. apply filter_In in J. destruct x as [r|r]; [destruct J; discriminate|].
      destruct J as [J _]. apply freed_by_moves in J. destruct J as [J1 J2]. congruence.
  - unfold nfree. destruct (filter is_free (evmoves g (st_cls s a k) e)) as [|x y] eqn:X; [cbn; lia|]. exfalso. assert (In x (x :: y)) as J by (left; auto). rewrite <- X in J. apply filter_In in J. destruct x as [r|r]; [destruct J; discriminate|].
    destruct J as [J _]. apply freed_by_moves in J. destruct J as [J1 J2]. congruence.
Qed.
Lemma small_block g t s LL p d n : linv g t s LL -> In (p, d) (live t) -> in_small_area s p -> usable_size g s p n -> exists a k i j, hinv g s LL /\ sblk g s a k i j p /\ n = usable_of g k.
Proof.
  intros LI Hl Hp US. destruct (live_block _ _ _ _ _ _ LI Hl) as (n' & B & _ & HI & _). pose proof (usable_eq _ _ _ _ _ _ _ _ LI Hl B US). subst n'. destruct B as [(a & k & i & j & S & E)|(gd & Hr)]; [exists a, k, i, j; auto|].
  exfalso. pose proof (region_p g s LL [] (hi_inv _ _ _ HI) _ Hr) as (S & _). cbn [rg_p rg_size] in *. pose proof (region_not_slab g s LL [] (hi_inv _ _ _ HI) _ Hr p ltac:(cbn; lia)) as X. unfold in_slab_region, in_small_area in *. lia.
Qed.
Lemma sblk_inb g s LL a k i j p : hinv g s LL -> sblk g s a k i j p -> inb g (st_cls s a k) p = true.
Proof.
  intros HI (C & Hj & Hg & ->). destruct (slot_info g s LL [] (hi_inv _ _ _ HI) a k i j C Hj (granted_used _ _ _ Hg)) as (_ & _ & B1 & B2). pose proof (class_facts_all g k (proj2 C)) as []. unfold inb. lia.
Qed.
Lemma slot_bytes_eq g k : 0 <= k < N_SIZE_CLASSES g -> slot_bytes g (usable_of g k) = slot_size g k.
Proof.
  intros Hk. pose proof (class_facts_all g k Hk) as []. pose proof (usable_bounds g k Hk) as [_ B]. unfold slot_bytes, usable_of in *. destruct (Z.eqb_spec k 0) as [->|N].
  - change (16 = slot_size g 0). unfold slot_size. rewrite cf_size. reflexivity.
  - specialize (B N). replace (slot_size g k - canary_size g =? 0) with false by lia. lia.
Qed.
Lemma qwait_eq g k : 0 <= k < N_SIZE_CLASSES g -> usable_config g = true ->
  (if 0 <? SLAB_QUARANTINE_RANDOM_LENGTH g then 1 else 0) + queue_length g (slot_bytes g (usable_of g k)) = qwait g k.
Proof.
  intros Hk U. unfold qwait, qlen. rewrite (slot_bytes_eq g k Hk), (queue_length_eq g k Hk). destruct (Z.ltb_spec 0 (SLAB_QUARANTINE_QUEUE_LENGTH g)); [reflexivity|]. pose proof (ucfg_of g U) as [].
  unfold slab_quarantine_queue_length. replace (SLAB_QUARANTINE_QUEUE_LENGTH g) with 0 by lia. rewrite Z.shiftl_0_l. reflexivity.
Qed.
Lemma C09_l g W o t s tid c a s1 p d n t2 s2 tid2 c2 a2 s3 : usable_config g = true -> history g W o t s ->
  In (p, d) (live t) -> in_small_area s p -> usable_size g s p n ->
  calls g W t s tid c a s1 -> freed_by (mkEv tid c a) = Some p ->
  continues g W (mkEv tid c a :: t) s1 t2 s2 ->
  calls g W t2 s2 tid2 c2 a2 s3 -> handed_out (mkEv tid2 c2 a2) = Some p ->
  (if 0 <? SLAB_QUARANTINE_RANDOM_LENGTH g then 1 else 0) + queue_length g (slot_bytes g n) <= Z.of_nat (frees_like g s p (since (mkEv tid c a :: t) t2)).
Proof.
  intros U H Hl Hp US C1 F1 K C2 F2. destruct (history_linv _ _ _ _ _ U H) as (LL & LI). destruct (small_block _ _ _ _ _ _ _ LI Hl Hp US) as (ar & k & i & j & HI & SB & ->).
  pose proof (sblk_inb _ _ _ _ _ _ _ _ HI SB) as Ib. pose proof SB as (Ck & _). rewrite (qwait_eq g k (proj2 Ck) U). pose proof (hinv_init _ _ _ HI) as Hi.
  destruct (calls_step _ _ _ _ _ _ _ _ _ LI C1) as (LL1 & SP1). pose proof (step_path _ _ _ _ _ _ _ _ _ ar k SP1 Ck) as P1.
  assert (c_start (st_cls s ar k) <> 0) as N0. { unfold inb in Ib. destruct (gclass g s LL [] (hi_inv _ _ _ HI) ar k Ck) as (E & F & CI). eapply cinvL_nz; eauto. }
  pose proof (cpath_start _ _ _ _ _ _ _ P1 N0) as E1. pose proof (calls_history _ _ _ _ _ _ _ _ _ H C1) as H1. pose proof (sited_init _ _ (calls_sited _ _ _ _ _ _ _ _ C1) Hi) as Hi1.
  destruct (moves_freed g (st_cls s1 ar k) _ p F1) as (l1 & Q1 & _); [rewrite (inb_ext g (st_cls s ar k)) by auto; exact Ib|]. rewrite Q1 in P1. pose proof (path_rk_new _ _ _ _ _ _ _ P1 _ _ eq_refl) as R1.
  destruct (cont_path _ _ _ _ _ _ _ ar k U H1 Hi1 K Ck) as [P2 E2]. destruct (history_linv _ _ _ _ _ U (cont_history _ _ _ _ _ _ _ H1 K)) as (LL2 & LI2). destruct (calls_step _ _ _ _ _ _ _ _ _ LI2 C2) as (LL3 & SP3).
  pose proof (step_path _ _ _ _ _ _ _ _ _ ar k SP3 Ck) as P3. pose proof (cpath_start _ _ _ _ _ _ _ P3 ltac:(congruence)) as E3.
  destruct (moves_handed g (st_cls s3 ar k) _ p F2) as (l3 & Q3); [rewrite (inb_ext g (st_cls s ar k)) by congruence; exact Ib|]. rewrite Q3 in P3.
  pose proof (cpath_app _ _ _ _ _ _ _ _ _ _ P2 P3) as P. destruct (live_block _ _ _ _ _ _ LI Hl) as (_ & _ & _ & _ & Bp & _). destruct (path_rk _ _ _ _ _ _ _ P p (qwait g k) ltac:(lia) R1) as [_ Fin].
  specialize (Fin _ _ eq_refl). rewrite (labs_ext g (st_cls s ar k) (st_cls s1 ar k)) in Fin by auto. eapply Z.le_trans; [exact Fin|]. eapply nfree_labs; eauto.
Qed.

(** ** C29 *)
Lemma trim_call g W t s LL tid a s' : linv g t s LL -> calls g W t s tid OTrim a s' -> exists b, a = ABool b /\ trimmed g s LL b s'.
Proof.
  intros LI C. apply (calls_wp g W t s tid OTrim a s' (fun a s' => exists b, a = ABool b /\ trimmed g s LL b s') (fun _ => True) C). cbn [op_run]. unfold pmap. apply wp_run_pbind.
  eapply wp_mono; [apply (trim_all_wp g s LL (li_ready _ _ _ _ LI))| |auto]. intros b s1 T. apply wp_run_ret. eauto.
Qed.
Lemma trim_cnt g k o c b o' c' : trim_cls g k o c b o' c' -> forall i, cntof c' i = cntof c i.
Proof.
  intros (E & F & E1 & E' & F' & (P & I & _) & _ & _ & (P' & I' & _) & T & _) i. unfold cntof. rewrite (so_cnt _ _ (ci_slabs _ _ _ _ _ _ _ _ _ I i)), (so_cnt _ _ (ci_slabs _ _ _ _ _ _ _ _ _ I' i)).
  apply zcount_ext. intros x _. apply (tp_used _ _ _ _ _ _ _ _ _ T).
Qed.
Lemma slab_gone g s LL s' b a k : hinv g s LL -> hinv g s' LL -> trimmed g s LL b s' -> class_in g a k -> k <> 0 -> exists E E', (exists F, cinvL g k (st_os s) (st_cls s a k) E F) /\ (exists F', cinvL g k (st_os s') (st_cls s' a k) E' F') /\
  exists E1, E = E1 ++ E' /\ (E1 <> [] -> b = true) /\ (E' = [] \/ refused (st_os s) (st_os s')) /\ (forall i, In i E1 -> ~ In i E' /\ cntof (st_cls s' a k) i = 0) /\ forall i, cntof (st_cls s' a k) i = cntof (st_cls s a k) i.
Proof.
  intros HI HI' T C K0. destruct (tr_cls _ _ _ _ _ T (hinv_init _ _ _ HI) a k C K0) as (o1 & b1 & o2 & L1 & L2 & TC & B).
  destruct (gclass g s LL [] (hi_inv _ _ _ HI) a k C) as (E & F & CI). destruct (gclass g s' LL [] (hi_inv _ _ _ HI') a k C) as (E' & F' & CI'). pose proof (trim_cnt _ _ _ _ _ _ _ TC) as CN.
  destruct TC as (E0 & F0 & E1 & E0' & F0' & CI0 & Q & Eb & CI0' & TP & R). destruct (lists_fun _ _ _ _ _ _ _ _ _ CI CI0) as [-> ->]. destruct (lists_fun _ _ _ _ _ _ _ _ _ CI' CI0') as [-> ->].
  exists E, E'. split; [eauto|]. split; [eauto|]. exists E1. split; [auto|]. split; [|split; [|split]].
  - intros N. apply B. rewrite Eb. destruct E1; [elim N|]; reflexivity.
  - destruct R as [->|R]; [auto|right]. eapply refused_mono; [exact L1| |exact L2|exact R]. apply (later_in _ _ _ (tp_os _ _ _ _ _ _ _ _ _ TP)).
  - pose proof CI as (P & I & _). pose proof (lk_nd _ _ _ _ (ci_link _ _ _ _ _ _ _ _ _ I)) as ND. apply NoDup_app_inv in ND. destruct ND as [ND _]. rewrite Q in ND. apply NoDup_app_inv in ND. destruct ND as (_ & _ & ND).
    intros i Hi. split; [apply ND; auto|]. rewrite CN. apply (ma_0 _ _ _ _ _ _ _ (ci_match _ _ _ _ _ _ _ _ _ I)); [discriminate|]. rewrite Q, <- app_assoc. apply in_or_app. auto.
  - exact CN.
Qed.
Lemma C29_cached_l g W o t s tid b s' : usable_config g = true -> history g W o t s -> calls g W t s tid OTrim (ABool b) s' -> is_init s = true ->
  (b = true <-> exists a k i, exists_class g a k /\ k <> 0 /\ cached (st_cls s a k) i /\ ~ cached (st_cls s' a k) i).
Proof.
  intros U H C Hi. destruct (history_hinv _ _ _ _ _ U H Hi) as (LL & LI & HI). destruct (trim_call _ _ _ _ _ _ _ _ LI C) as (b' & [= <-] & T). pose proof (sited_init _ _ (calls_sited _ _ _ _ _ _ _ _ C) Hi) as Hi'.
  pose proof (ready_hinv _ _ _ (tr_inv _ _ _ _ _ T) Hi') as HI'. split.
  - intros ->. destruct (tr_res _ _ _ _ _ T eq_refl) as (_ & a & k & o1 & o2 & Ck & K0 & L1 & L2 & TC). destruct TC as (E & F & E1 & E' & F' & CI & Q & Eb & CI' & TP & R).
    destruct E1 as [|i E1]; [discriminate|]. exists a, k, i. split; [exact Ck|]. split; [auto|]. rewrite (cached_E _ _ _ _ _ _ i CI), (cached_E _ _ _ _ _ _ i CI'). rewrite Q. split; [left; auto|].
    pose proof CI as (P & I & _). pose proof (lk_nd _ _ _ _ (ci_link _ _ _ _ _ _ _ _ _ I)) as ND. apply NoDup_app_inv in ND. destruct ND as [ND _]. rewrite Q in ND. apply NoDup_app_inv in ND. destruct ND as (_ & _ & ND). apply ND. left. auto.
  - intros (a & k & i & Ck & K0 & H1 & H2). destruct (slab_gone _ _ _ _ _ _ _ HI HI' T Ck K0) as (E & E' & (F & CI) & (F' & CI') & E1 & Q & B & _). rewrite (cached_E _ _ _ _ _ _ i CI) in H1. rewrite (cached_E _ _ _ _ _ _ i CI') in H2.
    apply B. intros ->. apply H2. rewrite Q in H1. exact H1.
Qed.
Lemma C29_pages_l g W o t s tid b s' : usable_config g = true -> history g W o t s -> calls g W t s tid OTrim (ABool b) s' -> is_init s = true ->
  (b = true <-> exists x, in_small_area s x /\ accessible s x /\ inaccessible s' x).
Proof.
  intros U H C Hi. destruct (history_hinv _ _ _ _ _ U H Hi) as (LL & LI & HI). destruct (trim_call _ _ _ _ _ _ _ _ LI C) as (b' & [= <-] & T). pose proof (sited_init _ _ (calls_sited _ _ _ _ _ _ _ _ C) Hi) as Hi'.
  pose proof (ready_hinv _ _ _ (tr_inv _ _ _ _ _ T) Hi') as HI'. pose proof (calls_history _ _ _ _ _ _ _ _ _ H C) as H'. destruct (calls_sited _ _ _ _ _ _ _ _ C Hi) as (Sa & Sb & Sc).
  assert (forall a k, class_in g a k -> c_start (st_cls s' a k) = c_start (st_cls s a k)) as St.
  { intros a k Ck. destruct (calls_step _ _ _ _ _ _ _ _ _ LI C) as (LL1 & SP1). apply (cpath_start _ _ _ _ _ _ _ (step_path _ _ _ _ _ _ _ _ _ a k SP1 Ck)). destruct (gclass g s LL [] (hi_inv _ _ _ HI) a k Ck) as (E & F & CI). eapply cinvL_nz; eauto. }
  split.
  - intros ->. destruct (proj1 (C29_cached_l g W o t s tid true s' U H C Hi) eq_refl) as (a & k & i & Ck & K0 & H1 & H2).
    destruct (slab_gone _ _ _ _ _ _ _ HI HI' T Ck K0) as (E & E' & (F & CI) & (F' & CI') & E1 & Q & _ & _ & G & CN). rewrite (cached_E _ _ _ _ _ _ i CI) in H1. rewrite (cached_E _ _ _ _ _ _ i CI') in H2.
    assert (In i E1) as Hi1. { rewrite Q in H1. apply in_app_or in H1. destruct H1; [auto|contradiction]. } destruct (G i Hi1) as [_ Z0].
    pose proof CI as (P & I & _). assert (is_slab g (st_cls s a k) i) as IS by (eapply (active_slab g k); [exact I|right; left; auto]). pose proof (slab_range g k _ _ _ _ _ _ _ i I IS) as SR. pose proof (class_facts_all g k (proj2 Ck)) as [].
    pose proof (ci_geom _ _ _ _ _ _ _ _ _ I) as Gm. pose proof (slab_in_region g k _ Gm i ltac:(lia)) as Rg. pose proof (class_region_lo g s LL [] (hi_inv _ _ _ HI) a k (slabp g k (st_cls s a k) i) Ck ltac:(unfold slabp in *; lia)) as Lo.
    exists (slabp g k (st_cls s a k) i). assert (forall s0, c_start (st_cls s0 a k) = c_start (st_cls s a k) -> in_slab_no g s0 a k i (slabp g k (st_cls s a k) i)) as IN.
    { intros s0 E0. unfold in_slab_no. rewrite E0, (slab_bytes_eq g k (proj2 Ck)). unfold slabp in *. split; lia. }
    split; [|split].
    + destruct (class_of_addr g s (gi_u _ _ _ _ (hi_inv _ _ _ HI)) (gi_pl _ _ _ _ (hi_inv _ _ _ HI)) a k _ Ck Lo) as [X _]. unfold in_slab_region, in_small_area in *. lia.
    + apply (C44_l g W o t s a k i _ U H Hi Ck (IN s eq_refl) K0). right. apply (cached_E _ _ _ _ _ _ i CI). auto.
    + apply (C44_zero_l g W o _ s' a k i _ U H' Hi' Ck (IN s' (St a k Ck)) K0). rewrite (C44_l g W o _ s' a k i _ U H' Hi' Ck (IN s' (St a k Ck)) K0), (cached_E _ _ _ _ _ _ i CI'). pose proof CI' as (P' & I' & _).
      rewrite (holds_cnt g k _ i (proj2 Ck) (ci_slabs _ _ _ _ _ _ _ _ _ I' i)). intros [X|X]; [lia|contradiction].
  - intros (x & Hx & Ac & Ina). assert (in_slab_region x s = true) as L by (unfold in_slab_region, in_small_area in *; lia).
    assert (exists a k i, exists_class g a k /\ k <> 0 /\ in_slab_no g s a k i x) as (a & k & i & Ck & K0 & IN).
    { destruct (addr_class g s (gi_u _ _ _ _ (hi_inv _ _ _ HI)) (gi_pl _ _ _ _ (hi_inv _ _ _ HI)) x L) as (a & k & E & Ck & B). destruct (Z.eq_dec k 0) as [->|K0]. { pose proof (zero_area g s LL x HI L ltac:(rewrite E; reflexivity)) as X. unfold accessible, inaccessible in *. congruence. }
      assert (c_start (st_cls s a k) <= x < c_start (st_cls s a k) + CLASS_REGION_SIZE g) as Bx.
      { destruct (Z_le_gt_dec (c_start (st_cls s a k)) x) as [L1|L1]; [destruct (Z_lt_le_dec x (c_start (st_cls s a k) + CLASS_REGION_SIZE g)) as [L2|L2]; [lia|]|];
          (assert (inaccessible s x) as X; [|unfold accessible, inaccessible in *; congruence]); apply (gap_area g s LL x HI L); intros a' k' C' Hc; destruct (class_apart g s LL a k a' k' x HI Ck C' B Hc) as [-> ->]; lia. }
      exists a, k, ((x - c_start (st_cls s a k)) / slab_size_of g k). split; [exact Ck|]. split; [auto|]. split; [auto|]. rewrite (slab_bytes_eq g k (proj2 Ck)). pose proof (class_facts_all g k (proj2 Ck)) as [].
      pose proof (Z.div_mod (x - c_start (st_cls s a k)) (slab_size_of g k) ltac:(lia)). pose proof (Z.mod_pos_bound (x - c_start (st_cls s a k)) (slab_size_of g k) ltac:(lia)). lia. }
    assert (in_slab_no g s' a k i x) as IN' by (unfold in_slab_no in *; rewrite (St a k Ck); exact IN).
    apply (C44_l g W o t s a k i x U H Hi Ck IN K0) in Ac. assert (~ accessible s' x) as NA by (unfold accessible, inaccessible in *; congruence). rewrite (C44_l g W o _ s' a k i x U H' Hi' Ck IN' K0) in NA.
    apply (C29_cached_l g W o t s tid b s' U H C Hi). exists a, k, i. split; [auto|]. split; [auto|].
    destruct (slab_gone _ _ _ _ _ _ _ HI HI' T Ck K0) as (E & E' & (F & CI) & (F' & CI') & E1 & Q & _ & _ & G & CN). pose proof CI as (P & I & _). pose proof CI' as (P' & I' & _).
    rewrite (holds_cnt g k _ i (proj2 Ck) (ci_slabs _ _ _ _ _ _ _ _ _ I i)) in Ac. rewrite (holds_cnt g k _ i (proj2 Ck) (ci_slabs _ _ _ _ _ _ _ _ _ I' i)) in NA. rewrite CN in NA. tauto.
Qed.
Lemma C29_none_l g W o t s tid b s' a k i : usable_config g = true -> history g W o t s -> calls g W t s tid OTrim (ABool b) s' -> is_init s = true -> ~ kernel_refused s s' ->
  exists_class g a k -> k <> 0 -> ~ cached (st_cls s' a k) i.
Proof.
  intros U H C Hi NR Ck K0. destruct (history_hinv _ _ _ _ _ U H Hi) as (LL & LI & HI). destruct (trim_call _ _ _ _ _ _ _ _ LI C) as (b' & [= <-] & T). pose proof (sited_init _ _ (calls_sited _ _ _ _ _ _ _ _ C) Hi) as Hi'.
  pose proof (ready_hinv _ _ _ (tr_inv _ _ _ _ _ T) Hi') as HI'. destruct (slab_gone _ _ _ _ _ _ _ HI HI' T Ck K0) as (E & E' & _ & (F' & CI') & E1 & Q & _ & [->|R] & _); [|contradiction]. rewrite (cached_E _ _ _ _ _ _ i CI'). auto.
Qed.
Lemma C29_early_l g W o t s tid b s' : usable_config g = true -> history g W o t s -> calls g W t s tid OTrim (ABool b) s' -> is_init s = false -> b = false.
Proof.
  intros U H C Hi. destruct (history_linv _ _ _ _ _ U H) as (LL & LI). destruct (trim_call _ _ _ _ _ _ _ _ LI C) as (b' & [= <-] & T). destruct b; [|auto]. destruct (tr_res _ _ _ _ _ T eq_refl) as [X _]. congruence.
Qed.
Lemma C29_frame_l g W o t s tid b s' : usable_config g = true -> history g W o t s -> calls g W t s tid OTrim (ABool b) s' ->
  undisturbed g (live t) s s' /\ live (mkEv tid OTrim (ABool b) :: t) = live t /\ history g W o (mkEv tid OTrim (ABool b) :: t) s'.
Proof.
  intros U H C. split; [eapply frame_all; eauto|]. split; [reflexivity|]. eapply calls_history; eauto.
Qed.
Lemma C41_returned_l g W o t s a k i x : usable_config g = true -> history g W o t s -> is_init s = true -> exists_class g a k -> in_slab_no g s a k i x -> k <> 0 ->
  ~ holds (st_cls s a k) i -> ~ cached (st_cls s a k) i -> inaccessible s x /\ content s x = 0.
Proof. intros U H Hi C B K N1 N2. eapply C44_zero_l; eauto. intros A. apply (C44_l g W o t s a k i x U H Hi C B K) in A. tauto. Qed.
