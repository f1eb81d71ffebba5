(** The live blocks fit in the slabs in use; the examples about the statistics. *)
From Coq Require Import String ZArith List Bool Lia ZifyBool.
From Verif Require Import M_Base M_Config M_SizeClass M_OS M_Slab M_Region M_Api M_Hist M_Stats S_SizeClass S_Slab S_Heap S_Class S_Stats P_Base P_Count P_SizeClass P_SizeClass2 P_Bitmap P_Bitmap2 P_OS P_Links P_Slab1 P_Slab2 P_Slab3
  P_Region P_Heap1 P_Heap2 P_Heap3 P_Heap4 P_Heap5 P_Heap6 P_Heap7 P_Heap8 P_Heap9 P_Heap10 P_Heap11 P_Init P_Api0 P_Api1 P_Api2 P_Api3 P_Api4 P_Api5 P_Api6 P_Api7 P_Api8 P_Demo P_Demo5 P_Stats P_Stats2.
Import ListNotations.
Open Scope Z_scope.
Ltac Zify.zify_post_hook ::= idtac.
Lemma spans_in w (l L : list Z) : 0 <= w -> NoDup l -> (forall p x, In p l -> p <= x < p + w -> In x L) -> (forall p q x, In p l -> In q l -> p <= x < p + w -> q <= x < q + w -> p = q) -> zlen l * w <= zlen L.
Proof.
  intros Hw ND B D. assert (zlen (flat_map (fun p => zrange p (p + w)) l) = zlen l * w) as E.
  { clear - Hw. induction l as [|p l IH]; [reflexivity|]. cbn [flat_map]. unfold zlen in *. rewrite app_length. cbn [length]. pose proof (zrange_zlen p (p + w)) as X. unfold zlen in X. lia. }
  assert (NoDup (flat_map (fun p => zrange p (p + w)) l)) as NF.
  { clear E B. induction l as [|p l IH]; [constructor|]. cbn [flat_map]. inversion ND as [|? ? N1 N2]; subst. apply NoDup_app_inv. split; [apply zrange_NoDup|]. split.
    - apply IH; auto. intros a b x Ha Hb. apply D; right; auto.
    - intros x Hx Hf. apply in_flat_map in Hf. destruct Hf as (q & Hq & Hxq). apply in_zrange in Hx. apply in_zrange in Hxq. assert (p = q) by (apply (D p q x); [left; auto|right; auto|lia|lia]). subst. contradiction. }
  pose proof (NoDup_incl_length NF (l' := L)) as X. unfold zlen in *. rewrite <- E. assert (incl (flat_map (fun p => zrange p (p + w)) l) L) as IN; [|specialize (X IN); lia].
  intros x Hx. apply in_flat_map in Hx. destruct Hx as (p & Hp & Hx). apply in_zrange in Hx. eauto.
Qed.
Lemma live_mapped g t s LL a k n : linv g t s LL -> hinv g s LL -> class_in g a k -> slabs_in_use (st_cls s a k) n -> live_in g s a k t * slot_size g k <= n * slab_bytes g k.
Proof.
  intros LI HI C (l & NDl & Hl & ->). pose proof (hi_inv _ _ _ HI) as I. pose proof (class_facts_all g k (proj2 C)) as [].
  unfold live_in, count.
  pose proof (spans_in (slot_size g k) (filter (fun p => in_area g s a k p) (map fst (live t))) (flat_map (fun i => zrange (slabp g k (st_cls s a k) i) (slabp g k (st_cls s a k) i + slab_size_of g k)) l)) as X.
  assert (length (filter (fun p => in_area g s a k p) (map fst (live t))) = length (filter (fun b : Z * op => in_area g s a k (fst b)) (live t))) as EL.
  { clear. induction (live t) as [|[p c] l IH]; [reflexivity|]. cbn [map fst filter]. destruct (in_area g s a k p); cbn [length]; congruence. }
  assert (zlen (flat_map (fun i => zrange (slabp g k (st_cls s a k) i) (slabp g k (st_cls s a k) i + slab_size_of g k)) l) = zlen l * slab_size_of g k) as EF.
  { assert (0 <= slab_size_of g k) as Hb by lia. clear - Hb. induction l as [|i l IH]; [reflexivity|]. cbn [flat_map]. unfold zlen in *. rewrite app_length. cbn [length]. pose proof (zrange_zlen (slabp g k (st_cls s a k) i) (slabp g k (st_cls s a k) i + slab_size_of g k)) as Y. unfold zlen in Y. lia. }
  rewrite EF in X. unfold zlen in X. rewrite EL in X. rewrite (slab_bytes_eq g k (proj2 C)).
  assert (forall p, In p (filter (fun p => in_area g s a k p) (map fst (live t))) -> exists i j, sblk g s a k i j p) as SB.
  { intros p Hp. apply filter_In in Hp. destruct Hp as [Hp Ha]. apply in_map_iff in Hp. destruct Hp as ([q d] & E & Hp). cbn in E. subst q. eapply live_area; eauto. }
  apply X.
  - lia.
  - apply NoDup_filter, (li_nd _ _ _ _ LI).
  - intros p x Hp Hx. destruct (SB p Hp) as (i & j & (_ & Hj & Hg & ->)). apply in_flat_map. exists i. split.
    + apply Hl. left. exists j. split; [lia|]. rewrite occupied_get by lia. apply (granted_used _ _ _ Hg).
    + apply in_zrange. pose proof (slot_in_slab g k _ (ggeom g s LL [] I a k C) i j Hj). lia.
  - intros p q x Hp Hq Hx Hx'. destruct (SB p Hp) as (i & j & S). destruct (SB q Hq) as (i' & j' & S'). destruct (sblk_apart g s LL [] I _ _ _ _ _ _ _ _ _ _ _ S S' Hx Hx') as (_ & _ & -> & ->).
    destruct S as (_ & _ & _ & ->), S' as (_ & _ & _ & ->). reflexivity.
Qed.
Lemma total_le {A} (f h : A -> Z) l : (forall x, In x l -> f x <= h x) -> total (map f l) <= total (map h l).
Proof. intros H. induction l as [|x l IH]; [reflexivity|]. cbn [map total fold_right] in *. pose proof (H x (or_introl eq_refl)). assert (total (map f l) <= total (map h l)) by (apply IH; intros; apply H; right; auto). unfold total in *. lia. Qed.
Lemma used_le_mapped g W o t s N : usable_config g = true -> history g W o t s -> is_init s = true -> slab_counts g s N ->
  (forall a k, exists_class g a k -> class_used g s t a k <= class_mapped g N a k) /\ (forall a, 0 <= a < N_ARENA g -> arena_used g s t a <= arena_mapped g N a) /\ heap_used g s t <= heap_mapped g N.
Proof.
  intros U H Hi SC. destruct (history_hinv _ _ _ _ _ U H Hi) as (LL & LI & HI).
  assert (forall a k, exists_class g a k -> class_used g s t a k <= class_mapped g N a k) as A by (intros a k C; unfold class_used, class_mapped; eapply live_mapped; eauto).
  assert (forall a, 0 <= a < N_ARENA g -> arena_used g s t a <= arena_mapped g N a) as B by (intros a Ha; unfold arena_used, arena_mapped; apply total_le; intros k Hk; apply in_zrange in Hk; apply A; split; auto).
  split; [exact A|]. split; [exact B|]. unfold heap_used, heap_mapped. apply total_le. intros a Ha. apply in_zrange in Ha. auto.
Qed.
Lemma heap_small g s t N : usable_config g = true -> tracked g s t N -> 0 <= heap_used g s t /\ heap_mapped g N < 2 ^ 64.
Proof.
  intros U TR. pose proof (ucfg_of g U) as [].
  assert (forall f : Z -> Z, (forall a, 0 <= a < N_ARENA g -> 0 <= f a <= 49 * 2199023255552) -> 0 <= total (map f (zrange 0 (N_ARENA g))) <= N_ARENA g * (49 * 2199023255552)) as X.
  { intros f Hf. pose proof (total_bound (map f (zrange 0 (N_ARENA g))) (49 * 2199023255552)) as B. pose proof (zrange_zlen 0 (N_ARENA g)) as L. unfold zlen in *. rewrite map_length in B.
    assert (forall x, In x (map f (zrange 0 (N_ARENA g))) -> 0 <= x <= 49 * 2199023255552) as Y by (intros x Hx; apply in_map_iff in Hx; destruct Hx as (k & <- & Hk); apply in_zrange in Hk; auto). specialize (B Y). lia. }
  change (2 ^ 64) with 18446744073709551616.
  assert (forall a, 0 <= a < N_ARENA g -> 0 <= arena_used g s t a <= 49 * 2199023255552 /\ 0 <= arena_mapped g N a <= 49 * 2199023255552) as AF by (intros a Ha; exact (arena_fits g s t N a U TR Ha)).
  pose proof (X (arena_used g s t) (fun a Ha => proj1 (AF a Ha))). pose proof (X (arena_mapped g N) (fun a Ha => proj2 (AF a Ha))). fold (heap_used g s t) in *. fold (heap_mapped g N) in *. lia.
Qed.
Lemma C28_total_exact g W o t s N : usable_config g = true -> STATS g = true -> history g W o t s -> is_init s = true -> slab_counts g s N -> ordinary t ->
  reports s (h_mallinfo2 g) (mkInfo (large_used g s t + heap_mapped g N) 0 (large_used g s t + heap_used g s t) (heap_mapped g N - heap_used g s t) 0 (large_used g s t + heap_mapped g N)).
Proof.
  intros U ST H Hi SC OR. pose proof (C28_total_l _ _ _ _ _ _ U ST H Hi SC OR) as R. destruct (used_le_mapped _ _ _ _ _ _ U H Hi SC) as (_ & _ & B). destruct (heap_small g s t N U (counts_tracked _ _ _ _ _ _ U H Hi ST SC)) as [B1 B2].
  rewrite Z.mod_small in R by lia. exact R.
Qed.
Lemma info_outside g s a k : (h_mallinfo_narenas g <= a -> reports s (h_mallinfo_arena_info g a) info_zero) /\
  (h_mallinfo_narenas g - 1 <= a \/ h_mallinfo_nbins g <= k -> reports s (h_mallinfo_bin_info g a k) info_zero).
Proof.
  unfold h_mallinfo_narenas, h_mallinfo_nbins, h_mallinfo_arena_info, h_mallinfo_bin_info, reports. split; intros Ha; exists s; (split; [|apply unchanged_refl]); destruct (STATS g); cbn [negb]; try reflexivity; rewrite run_get; destruct (is_init s); cbn [negb]; try reflexivity.
  - replace (a <? N_ARENA g) with false by lia. replace (a =? N_ARENA g) with false by lia. reflexivity.
  - replace ((a <? N_ARENA g) && (k <? N_SIZE_CLASSES g)) with false by lia. reflexivity.
Qed.
Lemma C28_large_last g W o t s : usable_config g = true -> STATS g = true -> history g W o t s -> is_init s = true -> ordinary t ->
  reports s (h_mallinfo_arena_info g (h_mallinfo_narenas g - 1)) (mkInfo (large_used g s t) 0 (large_used g s t) 0 0 0).
Proof. unfold h_mallinfo_narenas. rewrite Z.add_simpl_r. apply C28_large_l. Qed.
Lemma known g s a r i : is_init s = true -> STATS g = true -> a = N_ARENA g -> r = mkInfo (ra_allocated (st_ra s)) 0 (ra_allocated (st_ra s)) 0 0 0 -> says (h_mallinfo_arena_info g a) i s = true -> reports s (h_mallinfo_arena_info g a) i.
Proof. intros Hi ST -> -> S. pose proof (info_large_l g s Hi ST) as R. pose proof (says_ok _ _ _ _ S R) as <-. exact R. Qed.
Lemma C28_uncounted : exists (g : config) (W : store_rule) (o : os) (t : trace) (s : state) (r : mallinfo),
  usable_config g = true /\ STATS g = true /\ history g W o t s /\ is_init s = true /\
  reports s (h_mallinfo_arena_info g (N_ARENA g)) r /\ hblkhd r = 0 /\ uordblks r = 0 /\ large_used g s t = 229376.
Proof.
  exists g0, (own_store g0), o0, t6, s6, (mkInfo 0 0 0 0 0 0). pose proof (demo6_looks (LOther is_init) ltac:(in_list)) as Hi.
  pose proof (demo6_looks (LOther (fun s => large_used g0 s t6 =? 229376)) ltac:(in_list)) as Hl. pose proof (demo6_looks (LOther (says (h_mallinfo_arena_info g0 1) (mkInfo 0 0 0 0 0 0))) ltac:(in_list)) as Hs. cbn [looks] in *.
  split; [reflexivity|]. split; [reflexivity|]. split; [exact demo6_history|]. split; [exact Hi|]. split; [eapply known; [exact Hi|reflexivity|reflexivity|reflexivity|exact Hs]|]. split; [reflexivity|]. split; [reflexivity|]. apply Z.eqb_eq. exact Hl.
Qed.
Lemma C28_wraps : exists (g : config) (W : store_rule) (o : os) (t : trace) (s : state) (r : mallinfo),
  usable_config g = true /\ STATS g = true /\ history g W o t s /\ is_init s = true /\
  reports s (h_mallinfo_arena_info g (N_ARENA g)) r /\ hblkhd r = 2 ^ 64 - 229376 /\ uordblks r = 2 ^ 64 - 229376 /\ large_used g s t = 0.
Proof.
  exists g0, (own_store g0), o0, t7, s7, (mkInfo 18446744073709322240 0 18446744073709322240 0 0 0). pose proof (demo7_looks (LOther is_init) ltac:(in_list)) as Hi.
  pose proof (demo7_looks (LOther (fun s => large_used g0 s t7 =? 0)) ltac:(in_list)) as Hl. pose proof (demo7_looks (LOther (says (h_mallinfo_arena_info g0 1) (mkInfo 18446744073709322240 0 18446744073709322240 0 0 0))) ltac:(in_list)) as Hs. cbn [looks] in *.
  split; [reflexivity|]. split; [reflexivity|]. split; [exact demo7_history|]. split; [exact Hi|]. split; [eapply known; [exact Hi|reflexivity|reflexivity|reflexivity|exact Hs]|]. split; [reflexivity|]. split; [reflexivity|]. apply Z.eqb_eq. exact Hl.
Qed.
Lemma C28_example : usable_config g0 = true /\ STATS g0 = true /\ history g0 (own_store g0) o0 t5 s5 /\ is_init s5 = true /\ ordinary t5 /\ exists_class g0 0 7 /\
  reports s5 (h_mallinfo2 g0) (mkInfo 450560 0 442496 8064 0 450560) /\
  reports s5 (h_mallinfo_arena_info g0 0) (mkInfo 8192 0 0 0 128 0) /\
  reports s5 (h_mallinfo_arena_info g0 1) (mkInfo 442368 0 442368 0 0 0) /\
  reports s5 (h_mallinfo_bin_info g0 0 7) (mkInfo 0 112 2 1 0 0).
Proof.
  assert (usable_config g0 = true) as U by reflexivity. assert (STATS g0 = true) as ST by reflexivity. pose proof demo5_history as H. pose proof (demo5_looks (LOther is_init) ltac:(in_list)) as Hi. cbn [looks] in Hi.
  assert (exists_class g0 0 7) as C by (split; vm_compute; split; congruence). destruct (counts_exist _ _ _ _ _ U H Hi) as (N & SC). pose proof ordinary5 as OR.
  pose proof (demo5_looks (LOther (says (h_mallinfo2 g0) (mkInfo 450560 0 442496 8064 0 450560))) ltac:(in_list)) as L1. pose proof (demo5_looks (LOther (says (h_mallinfo_arena_info g0 1) (mkInfo 442368 0 442368 0 0 0))) ltac:(in_list)) as L2.
  pose proof (demo5_looks (LOther (says (h_mallinfo_arena_info g0 0) (mkInfo 8192 0 0 0 128 0))) ltac:(in_list)) as L3. pose proof (demo5_looks (LOther (says (h_mallinfo_bin_info g0 0 7) (mkInfo 0 112 2 1 0 0))) ltac:(in_list)) as L4. cbn [looks] in *.
  pose proof (C28_total_exact _ _ _ _ _ _ U ST H Hi SC OR) as R1. pose proof (C28_large_l _ _ _ _ _ U ST H Hi OR) as R2. pose proof (C28_arena_l _ _ _ _ _ _ 0 U ST H Hi SC ltac:(vm_compute; split; congruence)) as R3. pose proof (C28_class_l _ _ _ _ _ _ _ U ST H Hi C) as R4.
  change (N_ARENA g0) with 1 in R2.
  generalize dependent (large_used g0 s5 t5). intros u R1 R2.
  split; [auto|]. split; [auto|]. split; [auto|]. split; [auto|]. split; [auto|]. split; [auto|].
  split; [pose proof (says_ok _ _ _ _ L1 R1) as E; rewrite E in R1; exact R1|]. split; [pose proof (says_ok _ _ _ _ L3 R3) as E; rewrite E in R3; exact R3|]. split; [pose proof (says_ok _ _ _ _ L2 R2) as E; rewrite E in R2; exact R2|]. pose proof (says_ok _ _ _ _ L4 R4) as E; rewrite E in R4; exact R4.
Qed.
