(** realloc as a step on the set of blocks. *)
From Coq Require Import String ZArith List Bool Lia ZifyBool Permutation.
From Verif Require Import M_Base M_Config M_SizeClass M_Libdivide M_OS M_Random M_Slab M_Region M_Api M_Hist
  P_Base P_Count P_SizeClass P_Libdivide P_Random P_Bitmap P_Bitmap2 P_OS P_Links P_Slab1 P_Slab2 P_Slab3 P_Slab4 P_Slab9 P_Slab10 P_Slab11 P_Path
  P_Region P_Region2 P_Heap1 P_Heap2 P_Heap3 P_Heap4 P_Heap5 P_Heap6 P_Heap7 P_Heap8 P_Heap9 P_Heap10 P_Init.
Import ListNotations.
Open Scope Z_scope.
Ltac Zify.zify_post_hook ::= idtac.

Lemma hstep_move g s LL s1 LL1 s2 LL2 old n0 q m : hstep g s LL s1 LL1 None (Some (q, m)) -> block g s LL old n0 -> hstep g s1 LL1 s2 LL2 (Some old) None -> hinv g s1 LL1 ->
  hstep g s LL s2 LL2 (Some old) (Some (q, m)).
Proof.
  intros [A1 B1 C1 D1 H1 F1 G1] B [A2 B2 C2 D2 H2 F2 G2] HI. assert (q <> old) as N. { intros ->. specialize (B1 old m n0 eq_refl B). discriminate. }
  constructor.
  - intros p n. rewrite A2, A1. split.
    + intros [[[[H _]|[= <- <-]] E]|[=]]; auto.
    + intros [[H E]|[= <- <-]]; left; (split; [|congruence]); [left; split; [auto|discriminate]|right; auto].
  - intros p n n' [= <- <-] H. specialize (B1 q m n' eq_refl H). discriminate.
  - intros p n x H E Hx. rewrite (C2 p n x), (C1 p n x); auto; [discriminate|]. apply A1. left. split; [auto|discriminate].
  - auto.
  - destruct H1 as [X1 X2 X3 X4 X5 X6 X7 X8], H2 as [Y1 Y2 Y3 Y4 Y5 Y6 Y7 Y8]. constructor.
    + eapply later_trans; eauto.
    + intros a k C. rewrite <- moves_both by auto. eapply cpath_app; [|apply Y2, C]. rewrite <- (moves_ext g (st_cls s2 a k) (st_cls s1 a k)); [apply X2, C|].
      symmetry. apply (cpath_start _ _ _ _ _ _ _ (Y2 a k C)). pose proof (ggeom g s1 LL1 [] (hi_inv _ _ _ HI) a k C) as G. pose proof (ge_start _ _ _ G). lia.
    + intros a k i j p SB E. destruct (X3 a k i j p SB ltac:(discriminate)) as (U1 & U2 & U3). destruct (Y3 a k i j p U1 E) as (V1 & V2 & V3).
      split; [auto|]. split; [congruence|]. intros x Hx. rewrite V3, U3; auto.
    + intros a k i j p n [= <- <-] E SB. assert (sblk g s1 a k i j q) as S1 by (apply Y6; [auto|discriminate]).
      destruct (Y3 a k i j q S1 ltac:(congruence)) as (V1 & V2 & V3). intros Sc Nk.
      pose proof (X4 a k i j q m eq_refl ltac:(discriminate) S1 Sc Nk) as K. destruct SB as (Ck & Hj & _ & Eq). destruct S1 as (_ & _ & _ & Eq1). rewrite <- Eq. rewrite <- Eq1 in K.
      rewrite V2, <- K. apply u64_same. intros x Hx. apply V3. destruct (class_facts_all g k (proj2 Ck)). lia.
    + intros a k i j p n [= <- <-] E SB. apply (X5 a k i j q m eq_refl ltac:(discriminate)). apply Y6; [auto|discriminate].
    + intros a k i j p SB Na. apply X6; [|auto]. apply Y6; [auto|discriminate].
    + intros a k i j p E Na SB. destruct (X3 a k i j p SB ltac:(discriminate)) as (U1 & U2 & U3). intros Sc Nk. pose proof (Y7 a k i j p E ltac:(discriminate) U1 Sc Nk) as Q.
      destruct SB as (Ck & _ & _ & Ep). destruct U1 as (_ & _ & _ & Ep1). rewrite <- Ep. rewrite <- Ep1, U2 in Q. rewrite <- Q. apply u64_same. intros x Hx. symmetry. apply U3. destruct (class_facts_all g k (proj2 Ck)). lia.
    + intros a k i j p n Er Ea SB. congruence.
  - congruence.
  - intros O. destruct (G1 O) as [O1 K1]. specialize (O1 eq_refl). destruct (G2 O1) as [O2 K2]. split; [discriminate|]. intros r Hr. destruct (K2 r Hr) as [H|([=] & _)]. destruct (K1 r H) as [Q|(Q1 & [Q|([=] & _)])]; auto.
Qed.
Lemma grant_min g size : 0 <= size < 2 ^ 64 -> (max_slab_size_class g < size -> grant g size <> 0) -> (if size <=? max_slab_size_class g then size - canary_size g else size) <= grant g size.
Proof.
  intros H NZ. unfold grant in *. pose proof (max_slab_bounds g) as MB. pose proof (canary_le g). destruct (Z.leb_spec size (max_slab_size_class g)) as [S|L].
  - unfold usable_of. destruct (gsi_class_range g size ltac:(lia)) as (K1 & K2 & K3). destruct (gsi_spec g size ltac:(lia)) as (_ & G2 & _).
    destruct (Z.eqb_spec (si_class (get_size_info size)) 0) as [E|E]; [apply K3 in E; lia|]. rewrite (class_size_slot g _ K1 E) in K2. lia.
  - destruct (large_any g size H) as (L1 & L2 & L3). apply L2. apply NZ. lia.
Qed.
Lemma small_stays g s LL s' LL' old n0 : hinv g s LL -> hinv g s' LL' -> in_slab_region old s = true -> block g s' LL' old n0 ->
  (forall sz gd, In (mkRegion old sz gd) (rl_own LL') -> In (mkRegion old sz gd) (rl_own LL)) -> in_slab_region old s' = true.
Proof.
  intros HI HI' L [(a & k & i & j & SB & _)|(gd & B)] Hsub; [apply (sblk_loc g s' LL' [] (hi_inv _ _ _ HI') _ _ _ _ _ SB)|].
  apply Hsub in B. destruct (region_p g s LL [] (hi_inv _ _ _ HI) _ B) as (P & _). cbn in P. rewrite (region_not_slab g s LL [] (hi_inv _ _ _ HI) _ B) in L; [discriminate|cbn; lia].
Qed.
Definition ralloc_fault (g : config) (s : state) (f : fault) : Prop := api_fault g s f \/ f = Fatal "canary corrupted" /\ ~ clean g s.
Definition old_ok (g : config) (s : state) (LL : regs) (old n0 old_size : Z) : Prop :=
  (in_slab_region old s = true /\ old_size = class_size g (snd (slab_size_class g s old))) \/
  (in_slab_region old s = false /\ (exists gd, In (mkRegion old n0 gd) (rl_own LL)) /\ old_size = n0 /\ max_slab_size_class g < n0).
Lemma old_size_slab g s LL old n0 : hinv g s LL -> block g s LL old n0 -> in_slab_region old s = true ->
  let v := class_size g (snd (slab_size_class g s old)) in 0 <= v <= max_slab_size_class g /\ n0 = (if v =? 0 then 0 else v - canary_size g) /\ (v <> 0 -> 16 <= v).
Proof.
  intros HI B L. destruct (slab_block _ _ _ _ _ HI L B) as (a & k & i & j & SB & ->). destruct (sblk_loc g s LL [] (hi_inv _ _ _ HI) _ _ _ _ _ SB) as [_ E]. rewrite E. cbn [snd].
  pose proof (class_facts_all g k ltac:(apply SB)) as []. rewrite cf_size. unfold usable_of. destruct (Z.eqb_spec k 0); cbv zeta.
  - pose proof (max_slab_bounds g). cbn. lia.
  - replace (slot_size g k =? 0) with false by lia. lia.
Qed.
Lemma got_push g s LL s' LL' size p old n0 : hinv g s LL -> block g s LL old n0 -> p <> old -> shape g s' LL LL' size p ->
  forall sz gd, In (mkRegion old sz gd) (rl_own LL') <-> In (mkRegion old sz gd) (rl_own LL).
Proof.
  intros HI B N [(_ & -> & _)|(_ & _ & gd' & -> & _)] sz gd; [tauto|]. cbn [push rl_own In]. split; [intros [[= E _ _]|H]; [congruence|auto]|auto].
Qed.
Lemma realloc_copy_wp g tid s LL old n0 old_size size : hinv g s LL -> ra_leftover (st_ra s) = false -> 0 <= size < 2 ^ 64 -> 0 <= old < 2 ^ 64 -> block g s LL old n0 -> old_ok g s LL old n0 old_size ->
  wp (run (realloc_copy g tid old old_size size)) s (fun r s' =>
     match r with
     | None => anone g s LL s' /\ (errno (st_os s') = ENOMEM \/ tfull g s /\ max_slab_size_class g < size)
     | Some q => exists LL' m, hinv g s' LL' /\ hstep g s LL s' LL' (Some old) (Some (q, m)) /\ q mod 16 = 0 /\ (if size <=? max_slab_size_class g then size - canary_size g else size) <= m /\ big g LL' q /\
         (m = grant g size /\ in_class_of g s' (si_class (get_size_info size)) q /\ size <= max_slab_size_class g \/ max_slab_size_class g < size /\ size <= m) /\
         (forall i, 0 <= i < Z.min (if (0 <? size) && (size <=? max_slab_size_class g) then size - canary_size g else size) n0 -> mem (st_os s') (q + i) = mem (st_os s) (old + i))
     end) (ralloc_fault g s).
Proof.
  intros HI Le Hs Ho B OK. pose proof HI as [I O S A C SC]. unfold realloc_copy. pose proof (max_slab_bounds g) as MB. pose proof (canary_le g) as CB.
  apply wp_run_pbind. eapply wp_mono; [apply (init_call_wp g tid s LL (or_introl HI))| |intros f [H1 H2]; left; right; right; left; auto]. intros arena s1 (Ha & IN). pose proof IN as [i1 i2 i3 i4 i5 i7 i6].
  apply wp_run_pbind. eapply wp_mono; [apply (allocate_wp g arena s1 LL size i1 (i5 Le) Ha Hs)| |intros f H; left; eapply alloc_fault_api; eauto]. intros [q|] s2.
  2:{ intros (L & E). apply wp_run_ret. split; [eapply lost_anone; eauto|]. unfold tfull. rewrite <- i7. exact E. }
  intros (LL' & G & Sh). pose proof (got_ares _ _ _ _ _ _ _ _ IN G) as AR. set (m := grant g size) in *.
  pose proof (ar_inv _ _ _ _ _ _ _ AR) as HI2. pose proof (ar_step _ _ _ _ _ _ _ AR) as HS2.
  assert (q <> old) as Nq. { intros ->. pose proof (hs_new _ _ _ _ _ _ _ HS2 old m n0 eq_refl B). discriminate. }
  assert (block g s2 LL' q m) as BN by (apply HS2; right; reflexivity).
  assert (block g s2 LL' old n0) as BO by (apply HS2; left; split; [auto|discriminate]).
  pose proof (got_push g s LL s2 LL' size q old n0 HI B Nq Sh) as GP.
  assert (max_slab_size_class g < size -> m <> 0) as MNZ by (intros H; eapply shape_nz; [exact HI2|exact BN|exact Sh|lia|lia]).
  pose proof (grant_min g size Hs MNZ) as GM. fold m in GM.
  set (cs := if (0 <? Z.min size old_size) && (Z.min size old_size <=? max_slab_size_class g) then Z.min size old_size - canary_size g else Z.min size old_size).
  assert (cs <= n0 /\ (cs <= m \/ cs <= 0) /\ (Z.min (if (0 <? size) && (size <=? max_slab_size_class g) then size - canary_size g else size) n0 <= Z.max 0 cs)) as (C1 & C2 & C3).
  { unfold cs. clear cs. destruct OK as [(L & Eo)|(L & _ & Eo & Bg)].
    - destruct (old_size_slab g s LL old n0 HI B L) as (V1 & V2 & V3). rewrite <- Eo in V1, V2, V3. destruct (Z.eqb_spec old_size 0); destruct (Z.leb_spec size (max_slab_size_class g)); destruct (Z.ltb_spec 0 size); cbn [andb] in *; destruct (Z.min_spec size old_size) as [[? ->]|[? ->]]; destruct (_ && _) eqn:Q; lia.
    - subst n0. destruct (Z.leb_spec size (max_slab_size_class g)); destruct (Z.ltb_spec 0 size); cbn [andb] in *; destruct (Z.min_spec size old_size) as [[? ->]|[? ->]]; destruct (_ && _) eqn:Q; lia. }
  assert (0 <= n0) as N0p by (apply (block_bounds g s LL [] I old n0 B)).
  assert (forall x, q <= x < q + cs -> pages (st_os s2) (page_of x) = Some PRW) as RWq. { intros x Hx. eapply (block_rw g s2 LL' [] (hi_inv _ _ _ HI2)); [exact BN|lia]. }
  apply wp_run_pbind, wp_run_act. unfold on_os. apply wp_zoom. fold cs.
  apply mem_copy_wp.
  { intros Hc. split; apply rw_all; auto; intros x Hx; [rewrite RWq by auto; reflexivity|]. rewrite (block_rw g s2 LL' [] (hi_inv _ _ _ HI2) old n0 x BO ltac:(lia)). reflexivity. }
  set (o3 := copied_os q old cs (st_os s2)). assert (poke (fun x => q <= x < q + cs) (st_os s2) o3) as PK by (apply poke_copy; exact RWq).
  assert (poke (fun x => q <= x < q + m) (st_os s2) o3) as PK2 by (eapply poke_mono; [|exact PK]; cbn; lia).
  set (s3 := set_st_os o3 s2). assert (hinv g s3 LL') as HI3 by (eapply hinv_poke; eauto).
  assert (hstep g s LL s3 LL' None (Some (q, m))) as HS3 by (eapply hstep_poke; eauto).
  assert (block g s3 LL' old n0) as BO3 by (apply HS3; left; split; [auto|discriminate]).
  assert (block g s3 LL' q m) as BN3 by (apply HS3; right; reflexivity).
  assert (q mod 16 = 0) as Qm by (eapply shape_align; [exact HI2| |exact Sh]; lia).
  assert (forall s4 LL4 n4, freed g s3 LL' s4 LL4 old n4 -> (LL4 = LL' \/ LL4 = drop old LL') ->
     exists LL' m, hinv g s4 LL' /\ hstep g s LL s4 LL' (Some old) (Some (q, m)) /\ q mod 16 = 0 /\ (if size <=? max_slab_size_class g then size - canary_size g else size) <= m /\ big g LL' q /\
         (m = grant g size /\ in_class_of g s4 (si_class (get_size_info size)) q /\ size <= max_slab_size_class g \/ max_slab_size_class g < size /\ size <= m) /\
         (forall i, 0 <= i < Z.min (if (0 <? size) && (size <=? max_slab_size_class g) then size - canary_size g else size) n0 -> mem (st_os s4) (q + i) = mem (st_os s) (old + i))) as DONE.
  { intros s4 LL4 n4 F EL. pose proof (fr_step _ _ _ _ _ _ _ F) as HS4. exists LL4, m. split; [apply F|]. split; [eapply hstep_move; eauto|]. split; [exact Qm|]. split; [exact GM|]. split; [|split].
    - intros sz gd Hin. assert (In (mkRegion q sz gd) (rl_own LL')) as Hin'. { destruct EL as [->| ->]; [auto|]. cbn [drop rl_own] in Hin. apply out_In in Hin. tauto. }
      assert (sz = m) as ->. { eapply (block_fun g s3 LL' [] (hi_inv _ _ _ HI3)); [right; exists gd; exact Hin'|exact BN3]. }
      destruct Sh as [(S0 & -> & (a & k & i & SB) & _)|(L & _)]; [|replace (size <=? max_slab_size_class g) with false in GM by lia; lia]. exfalso.
      assert (hs_old : block g s LL q m) by (right; exists gd; exact Hin'). pose proof (hs_new _ _ _ _ _ _ _ HS2 q m m eq_refl hs_old). discriminate.
    - destruct Sh as [(S0 & -> & (a & i & j & SB) & _)|(L & _)].
      + left. split; [reflexivity|]. split; [|auto]. assert (block g s4 LL4 q m) as B4 by (apply HS4; left; split; [exact BN3|congruence]).
        assert (in_slab_region q s3 = true) as Lq. { apply (sblk_loc g s3 LL [] (hi_inv _ _ _ HI3) a (si_class (get_size_info size)) i j). exact SB. }
        pose proof (fr_place _ _ _ _ _ _ _ F) as SP. assert (in_slab_region q s4 = true) as Lq4 by (unfold in_slab_region in *; rewrite (sp_end _ _ SP), (sp_start _ _ SP); exact Lq).
        destruct (slab_block _ _ _ _ _ (fr_inv _ _ _ _ _ _ _ F) Lq4 B4) as (a' & k' & i' & j' & SB' & _).
        destruct (sblk_loc g s4 LL4 [] (hi_inv _ _ _ (fr_inv _ _ _ _ _ _ _ F)) _ _ _ _ _ SB') as [_ E4].
        destruct (sblk_loc g s3 LL [] (hi_inv _ _ _ HI3) a (si_class (get_size_info size)) i j q SB) as [_ E3].
        assert (slab_size_class g s4 q = slab_size_class g s3 q) as EE by (unfold slab_size_class; rewrite (sp_start _ _ SP); reflexivity).
        rewrite EE, E3 in E4. injection E4 as <- <-. exists a, i', j'. exact SB'.
      + right. split; [auto|]. replace (size <=? max_slab_size_class g) with false in GM by lia. exact GM.
    - intros i Hi. rewrite (hs_mem _ _ _ _ _ _ _ HS4 q m (q + i) BN3); [|congruence|lia]. unfold s3, o3. cbn [set_st_os st_os]. unfold copied_os. cbn [set_mem mem].
      replace ((q <=? q + i) && (q + i <? q + cs)) with true by lia. replace (q + i - q + old) with (old + i) by lia. apply (hs_mem _ _ _ _ _ _ _ HS2 old n0); [auto|discriminate|lia]. }
  assert (~ clean g s3 -> ~ clean g s) as NC. { intros H K. apply H. apply (hs_clean _ _ _ _ _ _ _ HS3 K). }
  apply wp_run_pbind. destruct OK as [(L & Eo)|(L & (gd & Hin) & Eo & Bg)].
  - destruct (old_size_slab g s LL old n0 HI B L) as (V1 & V2 & _). rewrite <- Eo in V1, V2. replace (old_size <=? max_slab_size_class g) with true by lia.
    assert (in_slab_region old s3 = true) as L3. { apply (small_stays g s LL s3 LL' old n0 HI HI3 L BO3). intros sz gd. apply GP. }
    eapply wp_mono; [apply (dsmall_top_wp g s3 LL' old None HI3 Ho L3)| |].
    + intros [] s4 (n4 & F & _). apply wp_run_ret. eapply DONE; eauto.
    + intros f [[[H _]|[[H _]|[[_ H]|(-> & _ & _ & H)]]]|(_ & e & [=] & _)]; [left; left; auto|left; right; left; auto|elim (H _ BO3)|right; auto].
  - replace (old_size <=? max_slab_size_class g) with false by lia.
    assert (in_slab_region old s3 = false) as L3. { apply (region_not_slab g s3 LL' [] (hi_inv _ _ _ HI3) (mkRegion old n0 gd)); [apply GP; exact Hin|cbn; lia]. }
    eapply wp_mono; [apply (dlarge_top_wp g s3 LL' old None (or_introl HI3) L3)| |].
    + intros [] s4 (n4 & F & _). apply wp_run_ret. eapply DONE; eauto.
    + intros f [[[H _]|[[H _]|[[_ H]|(-> & L4 & _)]]]|(_ & e & sz & gd' & [=] & _)]; [left; left; auto|left; right; left; auto|elim (H _ BO3)|congruence].
Qed.

(** ** pages of aligned ranges *)
Lemma pg_iff a l q : a mod 4096 = 0 -> l mod 4096 = 0 -> in_pages a l q = (a <=? q * 4096) && (q * 4096 <? a + l).
Proof.
  intros Ha Hl. apply Z.mod_divide in Ha; [|lia]. apply Z.mod_divide in Hl; [|lia]. destruct Ha as [x ->], Hl as [y ->]. unfold in_pages, page_of; cbv zeta beta. rewrite Z.div_mul by lia.
  replace (x * 4096 + y * 4096 + 4095) with (4095 + (x + y) * 4096) by lia. rewrite Z.div_add by lia. change (4095 / 4096) with 0. apply eq_iff_eq_true. rewrite !andb_true_iff. lia.
Qed.
Lemma pg_of x : page_of x * 4096 <= x < page_of x * 4096 + 4096.
Proof. unfold page_of. pose proof (Z.div_mod x 4096 ltac:(lia)). pose proof (Z.mod_pos_bound x 4096 ltac:(lia)). lia. Qed.
Lemma mod_add2 a b : a mod 4096 = 0 -> b mod 4096 = 0 -> (a + b) mod 4096 = 0.
Proof. intros H1 H2. rewrite Z.add_mod, H1, H2 by lia. reflexivity. Qed.
Lemma mod_sub2 a b : a mod 4096 = 0 -> b mod 4096 = 0 -> (a - b) mod 4096 = 0.
Proof. intros H1 H2. rewrite Zminus_mod, H1, H2. reflexivity. Qed.
Lemma in_pages_addr a l x : in_pages a l (page_of x) = true -> a mod 4096 = 0 -> l mod 4096 = 0 -> a <= x < a + l.
Proof.
  intros H Ha Hl. rewrite pg_iff in H by auto. pose proof (pg_of x). apply Z.mod_divide in Ha; [|lia]. apply Z.mod_divide in Hl; [|lia]. destruct Ha as [u ->], Hl as [v ->]. lia.
Qed.
Lemma addr_in_pages a l x : a mod 4096 = 0 -> l mod 4096 = 0 -> a <= x < a + l -> in_pages a l (page_of x) = true.
Proof.
  intros Ha Hl H. rewrite pg_iff by auto. pose proof (pg_of x). apply Z.mod_divide in Ha; [|lia]. apply Z.mod_divide in Hl; [|lia]. destruct Ha as [u ->], Hl as [v ->]. lia.
Qed.
(** replacing flights by parts of them *)
Lemma ginv_refly g s LL X X' : ginv g s LL X -> (forall f q, In f X' -> fl_in f q = true -> pages (st_os s) q = Some (fl_prot f q)) ->
  (forall q, cover (map fl_in X') q <= cover (map fl_in X) q) -> (forall q, cover (map fl_in X) q <= cover (map fl_in X') q) -> ginv g s LL X'.
Proof.
  intros I F C D. replace s with (set_st_ra (st_ra s) s) by (destruct s; reflexivity). pose proof I as [U PL CL RA RQ ND RG FL AP MP GP GC GT]. eapply ginv_relabel; [exact I|auto..].
  - intros q. rewrite !cover_app. specialize (C q). lia.
  - intros SL _. split; [exact SL|]. split; [auto|]. intros q. rewrite !cover_app. specialize (D q). lia.
Qed.
Lemma hinv_noop g s s' LL : hinv g s LL -> st_cls s' = st_cls s -> pages (st_os s') = pages (st_os s) -> mem (st_os s') = mem (st_os s) -> ginv g s' LL [] -> same_place s s' -> later (st_os s) (st_os s') -> anone g s LL s' \/ ra_leftover (st_ra s') <> false.
Proof.
  intros HI E1 E2 E3 I' P LT. destruct (ra_leftover (st_ra s')) eqn:Le; [right; discriminate|left]. constructor.
  - left. eapply hinv_same; eauto; apply HI.
  - eapply hstep_ext; [apply hstep_refl|auto|auto|auto].
  - auto.
  - intros H Hi. specialize (H (hinv_init _ _ _ HI)). eapply (hs_clean g s LL s' LL None None); [|exact H]. eapply hstep_ext; [apply hstep_refl|auto|auto|auto].
Qed.

(** ** shrinking in place *)
Lemma realloc_shrink_wp g s LL old sz gd size : hinv g s LL -> ra_leftover (st_ra s) = false -> In (mkRegion old sz gd) (rl_own LL) -> 16384 < size < sz -> size mod 4096 = 0 ->
  wp (run (realloc_shrink g old sz gd size)) s (fun r s' =>
     match r with
     | None => anone g s LL s' /\ errno (st_os s') = ENOMEM
     | Some q => q = old /\ exists LL', hinv g s' LL' /\ hstep g s LL s' LL' (Some old) (Some (old, size)) /\ In (mkRegion old size gd) (rl_own LL') /\
         (forall x, old <= x < old + size -> mem (st_os s') x = mem (st_os s) x)
     end) (fun f => sys_fault f \/ rng_fault f).
Proof.
  intros HI Le Hin Hsz Hm. pose proof HI as [I O S A C SC]. set (r := mkRegion old sz gd) in *.
  pose proof (gi_reg _ _ _ _ I r Hin) as K. pose proof K as [kp [kg kg2] ks klo khi krw kno]. destruct (region_len _ _ K) as (N1 & N2 & N3). cbn [r rg_p rg_size rg_guard] in *. change (2 ^ 47) with 140737488355328 in *.
  assert (sz mod 4096 = 0) as Szm by (apply (S r Hin); cbn; lia).
  unfold realloc_shrink. rewrite (w64_small (old + size)) by (change (2 ^ 64) with 18446744073709551616; lia).
  apply wp_run_pbind, wp_run_act. unfold on_os. apply wp_zoom. eapply wp_mono; [apply memory_map_fixed_wp| |auto]. intros [|] o1.
  { intros ->. apply wp_run_ret. split; [|reflexivity]. destruct (hinv_noop g s (set_st_os (failed_os (st_os s)) s) LL HI) as [H|H]; auto.
    - change (set_st_os (failed_os (st_os s)) s) with (set_st_os (failed_os (st_os s)) s). apply (gi_same g s (st_os s)); [|onw|reflexivity|reflexivity]. replace (set_st_os (st_os s) s) with s by (destruct s; reflexivity). exact I.
    - constructor; reflexivity.
    - split; [reflexivity|cbn; lia].
    - cbn in H. congruence. }
  intros (-> & M1 & _ & M2). set (o1 := mapped_os (old + size) gd (st_os s)).
  set (r' := mkRegion old size gd). set (F := mkFl (in_pages (old + size + gd) (sz - size)) (fun q => fl_prot (rflight r) q)).
  rewrite (w64_small (old + size + gd)), (w64_small (sz - size)) by (change (2 ^ 64) with 18446744073709551616; lia).
  assert ((old + size) mod 4096 = 0) as M3 by (apply mod_add2; auto). assert ((old + size + gd) mod 4096 = 0) as M4 by (apply mod_add2; auto). assert ((sz - size) mod 4096 = 0) as M5 by (apply mod_sub2; auto).
  assert ((old - gd) mod 4096 = 0) as M6 by (apply mod_sub2; auto). assert ((sz + 2 * gd) mod 4096 = 0) as M7 by (replace (2 * gd) with (gd + gd) by lia; apply mod_add2; auto; apply mod_add2; auto).
  assert ((size + 2 * gd) mod 4096 = 0) as M8 by (replace (2 * gd) with (gd + gd) by lia; apply mod_add2; auto; apply mod_add2; auto).
  assert (forall q, fl_in (rflight r) q = (old - gd <=? q * 4096) && (q * 4096 <? old + sz + gd)) as P1. { intros q. cbn [rflight fl_in]. unfold region_span. cbn [r rg_p rg_size rg_guard]. rewrite pg_iff by auto. f_equal. lia. }
  assert (forall q, fl_in (rflight r') q = (old - gd <=? q * 4096) && (q * 4096 <? old + size + gd)) as P2. { intros q. cbn [rflight fl_in]. unfold region_span. cbn [r' rg_p rg_size rg_guard]. rewrite pg_iff by auto. f_equal. lia. }
  assert (forall q, fl_in F q = (old + size + gd <=? q * 4096) && (q * 4096 <? old + sz + gd)) as P3. { intros q. cbn [F fl_in]. rewrite pg_iff by auto. f_equal. lia. }
  assert (forall q, pages o1 q = if in_pages (old + size) gd q then Some PNone else pages (st_os s) q) as PO by reflexivity.
  assert (forall q, in_pages (old + size) gd q = (old + size <=? q * 4096) && (q * 4096 <? old + size + gd)) as P4 by (intros q; apply pg_iff; auto).
  pose proof (ginv_open g s LL [] r I Hin) as I1.
  assert (forall q, fl_in (rflight r) q = true -> pages (st_os s) q = Some (fl_prot (rflight r) q)) as PR by (intros q; apply (gi_fl _ _ _ _ I1); left; reflexivity).
  set (f1 := mkFl (region_span r) (fun q => if in_pages (old + size) gd q then PNone else fl_prot (rflight r) q)).
  assert (ginv g (set_st_os o1 s) (opened r LL) [f1]) as I2.
  { apply (gi_step g s (st_os s) o1 (opened r LL) (rflight r) f1 []); auto; [|onw|..].
    - replace (set_st_os (st_os s) s) with s by (destruct s; reflexivity). exact I1.
    - intros q Hq. rewrite PO. rewrite P1 in Hq. rewrite P4. destruct ((old + size <=? q * 4096) && (q * 4096 <? old + size + gd)) eqn:Q; [lia|auto].
    - intros x Hx. rewrite P1 in Hx. unfold o1, mapped_os, zero_pages. cbn [mem set_mem map_pages set_pages next_sys]. rewrite P4. destruct ((old + size <=? page_of x * 4096) && (page_of x * 4096 <? old + size + gd)) eqn:Q; [lia|auto].
    - intros q Hq. rewrite PO. cbn [f1 fl_prot fl_in] in *. destruct (in_pages (old + size) gd q); [reflexivity|]. apply PR. exact Hq.
    - intros _ _ q H1 H2. cbn [f1 fl_in] in H2. change (fl_in (rflight r) q) with (region_span r q) in H1. congruence. }
  assert (ginv g (set_st_os o1 s) (opened r LL) [F; rflight r']) as I3.
  { eapply ginv_refly; [exact I2| | |].
    - assert (forall q, fl_in f1 q = true -> pages o1 q = Some (fl_prot f1 q)) as G1 by (intros q; apply (gi_fl _ _ _ _ I2); left; reflexivity).
      change (fl_in f1) with (fl_in (rflight r)) in G1. intros f q [<-|[<-|[]]] Hq.
      + rewrite P3 in Hq. cbn [set_st_os st_os]. rewrite G1 by (rewrite P1; lia). cbn [f1 F fl_prot]. rewrite P4. replace (_ && _) with false by lia. reflexivity.
      + rewrite P2 in Hq. cbn [set_st_os st_os]. rewrite G1 by (rewrite P1; lia). cbn [f1 rflight fl_prot]. f_equal. rewrite P4. cbn [r r' rg_p rg_size]. rewrite !pg_iff by auto.
        destruct ((old + size <=? q * 4096) && (q * 4096 <? old + size + gd)) eqn:Q1; destruct ((old <=? q * 4096) && (q * 4096 <? old + size)) eqn:Q2; destruct ((old <=? q * 4096) && (q * 4096 <? old + sz)) eqn:Q3; try reflexivity; lia.
    - intros q. cbn [map cover]. change (fl_in f1) with (fl_in (rflight r)). unfold hit. rewrite P1, P2, P3. destruct (_ && _) eqn:Q1, (_ && _) eqn:Q2 in |- *, (_ && _) eqn:Q3 in |- *; lia.
    - intros q. cbn [map cover]. change (fl_in f1) with (fl_in (rflight r)). unfold hit. rewrite P1, P2, P3. destruct (_ && _) eqn:Q1, (_ && _) eqn:Q2 in |- *, (_ && _) eqn:Q3 in |- *; lia. }
  assert (reg_ok o1 r') as K'.
  { constructor; cbn [r' rg_p rg_size rg_guard]; auto; try (change (2 ^ 47) with 140737488355328; lia).
    - intros q Hq. rewrite pg_iff in Hq by auto. change o1 with (st_os (set_st_os o1 s)). rewrite (gi_fl _ _ _ _ I3 (rflight r') q); [|right; left; reflexivity|rewrite P2; lia].
      cbn [rflight fl_prot r' rg_p rg_size]. rewrite pg_iff by auto. rewrite Hq. reflexivity.
    - intros q Hq1 Hq2. change o1 with (st_os (set_st_os o1 s)). rewrite (gi_fl _ _ _ _ I3 (rflight r') q); [|right; left; reflexivity|exact Hq1].
      cbn [rflight fl_prot r' rg_p rg_size]. rewrite Hq2. reflexivity. }
  set (s1 := set_st_os o1 s) in *. apply wp_run_pbind. apply wp_pra.
  eapply wp_mono; [apply (quarantine_deallocate_wp g s1 (ra_get s1) (opened r LL) [rflight r'] F (old + size + gd) (sz - size) 0)| |auto]; [..|intros q Hq1 Hq2; cbn [F fl_in] in Hq1; congruence|idtac]; try (change (2 ^ 47) with 140737488355328; lia).
  { rewrite ra_put_get. exact I3. }
  { intros q. cbn [F fl_in]. f_equal; lia. }
  intros [] rs2 (I4 & OC & Le2). cbn [ra_get rs_os rs_ra] in OC, Le2.
  (* the pages of the smaller block are not touched *)
  assert (forall q, fl_in (rflight r') q = true -> pages (rs_os rs2) q = pages o1 q) as KP.
  { intros q Hq. apply (oc_pages _ _ _ OC). intros [H|(e & He & NZ & H)].
    - rewrite P2 in Hq. rewrite P3 in H. lia.
    - pose proof (gi_apart _ _ _ _ I3 q) as AP. unfold spans in AP. rewrite !cover_app in AP. cbn [map cover] in AP. unfold hit at 2 in AP. rewrite Hq in AP. pose proof (hit_range (fl_in F) q).
      assert (1 <= cover (qspans (st_ra s1)) q); [|pose proof (cover_nonneg (fixed g s1) q); pose proof (cover_nonneg (map region_span (rl_own (opened r LL))) q); lia].
      eapply cover_In; [|exact H]. unfold qspans. apply in_map_iff. exists e. split; [auto|]. apply filter_In. split; [apply in_app_iff; auto|]. lia. }
  assert (forall x, fl_in (rflight r') (page_of x) = true -> mem (rs_os rs2) x = mem o1 x) as KM.
  { intros x Hq. apply (oc_mem _ _ _ OC). intros [H|(e & He & NZ & H)].
    - rewrite P2 in Hq. rewrite P3 in H. lia.
    - pose proof (gi_apart _ _ _ _ I3 (page_of x)) as AP. unfold spans in AP. rewrite !cover_app in AP. cbn [map cover] in AP. unfold hit at 2 in AP. rewrite Hq in AP. pose proof (hit_range (fl_in F) (page_of x)).
      assert (1 <= cover (qspans (st_ra s1)) (page_of x)); [|pose proof (cover_nonneg (fixed g s1) (page_of x)); pose proof (cover_nonneg (map region_span (rl_own (opened r LL))) (page_of x)); lia].
      eapply cover_In; [|exact H]. unfold qspans. apply in_map_iff. exists e. split; [auto|]. apply filter_In. split; [apply in_app_iff; auto|]. lia. }
  assert (reg_ok (rs_os rs2) r') as K2.
  { destruct K' as [a b c d e f h]. constructor; auto.
    - intros q Hq. rewrite KP; [apply f; exact Hq|]. rewrite P2. cbn [r' rg_p rg_size] in Hq. rewrite pg_iff in Hq by auto. lia.
    - intros q Hq Hq2. rewrite KP; [apply h; auto|exact Hq]. }
  apply wp_run_pbind, wp_run_act. unfold on_ra. apply wp_zoom. change (ra_get (ra_put rs2 s1)) with (mkRas (rs_os rs2) (rs_ra rs2)). rewrite <- rs_eta. unfold realloc_resize. apply wp_bind.
  assert (In r (rl_all (opened r LL))) as Hall by (unfold rl_all; apply in_or_app; right; left; reflexivity).
  eapply find_wp; [exact I4| |].
  2:{ intros N. elim N. apply in_map_iff. exists r. split; [reflexivity|exact Hall]. }
  intros i sz2 gd2 Hin2 Hi Nz Hc. assert (mkRegion old sz2 gd2 = r) as Er.
  { pose proof (gi_nd _ _ _ _ I4) as ND. apply (lmap_Some _ old sz2 gd2 ND) in Hin2. apply (lmap_Some _ old sz gd ND) in Hall. rewrite Hin2 in Hall. injection Hall as -> ->. reflexivity. }
  rewrite Er in Hc. apply wp_bind.
  eapply (set_size_open_wp g s1 rs2 (out old (rl_own LL)) (rl_open LL) _ _ r size [] i); [exact I4|exact Hi|exact Hc|exact Nz|exact K2|].
  intros rs3 I5 E5 L5.
  set (LL' := mkRegs (mkRegion (rg_p r) size (rg_guard r) :: out old (rl_own LL)) (rl_open LL) (rl_strict LL) (rl_base LL)) in *.
  assert (forall rs4, rs_os rs4 = rs_os rs3 -> ginv g (ra_put rs4 s1) LL' [] -> 
     exists LL', hinv g (ra_put rs4 s1) LL' /\ hstep g s LL (ra_put rs4 s1) LL' (Some old) (Some (old, size)) /\ In (mkRegion old size gd) (rl_own LL') /\
         (forall x, old <= x < old + size -> mem (rs_os rs4) x = mem (st_os s) x)) as DONE.
  { intros rs4 E4 I6. exists LL'.
    assert (forall x, old <= x < old + size -> mem (rs_os rs4) x = mem (st_os s) x) as MM.
    { intros x Hx. rewrite E4, E5. pose proof (addr_in_pages old size x kp Hm Hx) as Hp. rewrite pg_iff in Hp by auto. rewrite KM by (rewrite P2; lia).
      unfold o1, mapped_os, zero_pages. cbn [mem set_mem map_pages set_pages next_sys]. rewrite P4. destruct ((old + size <=? page_of x * 4096) && (page_of x * 4096 <? old + size + gd)) eqn:Q; [lia|auto]. }
    assert (os_chg (fun q => ~ kept g s LL (Some old) q) (st_os s) (rs_os rs4)) as OC2.
    { rewrite E4, E5. eapply os_chg_trans; [|eapply os_chg_mono; [|exact OC]].
      - apply os_in_chg. unfold o1. apply os_in_mapped. intros q Hq Hk. rewrite kept_drop in Hk. rewrite P4 in Hq.
        apply (user_away g s (opened r LL) [rflight r] (fl_in (rflight r)) q I1); [right; apply in_or_app; right; left; reflexivity|rewrite P1; lia|exact Hk].
      - intros q Hq Hk. rewrite kept_drop in Hk. assert (user g s1 (opened r LL) q) as Hk2 by exact Hk. revert Hk2. destruct Hq as [H|(e & He & NZ & H)].
        + apply (user_away g s1 (opened r LL) [F; rflight r'] (fl_in F) q I3); [right; apply in_or_app; right; left; reflexivity|exact H].
        + apply (user_away g s1 (opened r LL) [F; rflight r'] (in_pages (fst e) (snd e)) q I3); [|exact H]. right. apply in_or_app. left. unfold qspans.
          apply in_map_iff. exists e. split; [auto|]. apply filter_In. split; [apply in_app_iff; auto|]. lia. }
    split; [|split; [|split; [left; reflexivity|exact MM]]].
    - eapply hinv_same; [exact HI|exact I6|constructor; reflexivity|reflexivity|exact O|]. intros r0 [<-|Hr]; [cbn; auto|]. apply out_In in Hr. apply S. apply Hr.
    - apply (large_hstep g s (ra_put rs4 s1) LL LL' (Some old) (Some (mkRegion old size gd)) [] I); auto.
      + intros p n gd0. cbn [LL' rl_own In r rg_p rg_guard]. rewrite out_In. cbn [rg_p]. split.
        * intros [[= <- <- <-]|[H N]]; [right; reflexivity|left; split; [auto|congruence]].
        * intros [[H N]|[= <- <- <-]]; [right; split; [auto|congruence]|left; reflexivity].
      + intros p [= <-]. apply in_map_iff. exists r. auto.
      + intros r0 [= <-]. cbn [rg_p]. split; [|auto]. apply (region_not_slab g s LL [] I r Hin). cbn. lia.
      + intros _. split; [discriminate|]. intros r0 [= <-]. right. split; [reflexivity|]. exists sz. exact Hin. }
  unfold stats_large_deallocate. destruct (STATS g).
  - apply wp_modify. apply wp_run_ret. split; [reflexivity|]. eapply (DONE (set_rs_ra _ rs3)); [reflexivity|].
    eapply gi_ra_misc; [exact I5|reflexivity..|]. apply (rq_rng _ _ (gi_rq _ _ _ _ I5)).
  - apply wp_ret, wp_run_ret. split; [reflexivity|]. apply (DONE rs3); [reflexivity|exact I5].
Qed.

(** ** moving by mremap *)
Lemma lost_none g s LL s' : hinv g s LL -> lost g s LL s' -> anone g s LL s'.
Proof.
  intros HI [l1 l2 l3]. constructor; auto; [left; auto|]. intros H _. apply (hs_clean _ _ _ _ _ _ _ l2). apply H. apply (hinv_init _ _ _ HI).
Qed.
Lemma realloc_mremap_wp g s LL old sz gd size : hinv g s LL -> ra_leftover (st_ra s) = false -> In (mkRegion old sz gd) (rl_own LL) -> max_slab_size_class g < size < 2 ^ 64 -> 16384 < sz ->
  wp (run (realloc_mremap g old sz gd size)) s (fun r s' =>
     match r with
     | None => anone g s LL s' /\ (errno (st_os s') = ENOMEM \/ tfull g s)
     | Some q => exists LL' m, hinv g s' LL' /\ hstep g s LL s' LL' (Some old) (Some (q, m)) /\ q mod 16 = 0 /\ (size <= m /\ m = get_large_size_class g size) /\ big g LL' q /\
         (forall i, 0 <= i < Z.min size sz -> mem (st_os s') (q + i) = mem (st_os s) (old + i))
     end) (fun f => sys_fault f \/ rng_fault f).
Proof.
  intros HI Le Hin Hsize Hsz. pose proof HI as [I O S A C SC]. set (r := mkRegion old sz gd) in *. pose proof (max_slab_bounds g) as MB.
  pose proof (gi_reg _ _ _ _ I r Hin) as K. pose proof K as [kp [kg kg2] ks klo khi krw kno]. destruct (region_len _ _ K) as (N1 & N2 & N3). cbn [r rg_p rg_size rg_guard] in *. change (2 ^ 47) with 140737488355328 in *.
  assert (sz mod 4096 = 0) as Szm by (apply (S r Hin); cbn; lia).
  unfold realloc_mremap. apply wp_run_pbind. eapply wp_mono; [apply (large_alloc_wp g s LL size HI Le ltac:(lia))| |auto]. intros [new|] s1 (SP & H).
  2:{ destruct H as (L & E). apply wp_run_ret. split; [apply lost_none; auto|]. unfold tfull. rewrite (hinv_init _ _ _ HI). exact E. }
  destruct H as (gd2 & G & Pm & Gd & Z0). destruct G as [HI1 HS1 _]. set (m := get_large_size_class g size) in *. set (r2 := mkRegion new m gd2) in *. set (LL1 := push r2 LL) in *.
  assert (block g s LL old sz) as BO by (right; exists gd; exact Hin).
  assert (block g s1 LL1 new m) as BN by (apply HS1; right; reflexivity).
  assert (new <> old) as Nq. { intros E. rewrite E in HS1. pose proof (hs_new _ _ _ _ _ _ _ HS1 old m sz eq_refl BO). discriminate. }
  assert (block g s1 LL1 old sz) as BO1 by (apply HS1; left; split; [auto|discriminate]).
  destruct (large_any g size ltac:(lia)) as (L1 & L2 & L3). fold m in L1, L2, L3.
  pose proof (hi_inv _ _ _ HI1) as I1. assert (In r2 (rl_own LL1)) as Hin2 by (left; reflexivity). assert (In r (rl_own LL1)) as Hin1 by (right; exact Hin).
  pose proof (gi_reg _ _ _ _ I1 r2 Hin2) as K2. destruct (region_len _ _ K2) as (N4 & N5 & N6). cbn [r2 rg_p rg_size rg_guard] in *.
  assert (size <= m) as Lm by (apply L2; lia). assert (m mod 4096 = 0) as Mm by (apply (hi_sized _ _ _ HI1 r2 Hin2); cbn; lia).
  pose proof (ginv_open g s1 LL1 [] r I1 Hin1) as I2.
  (* out of the table *)
  apply wp_run_pbind, wp_run_act. unfold on_ra. apply wp_zoom. unfold realloc_delete. apply wp_bind.
  assert (In r (rl_all (opened r LL1))) as Hall by (unfold rl_all; apply in_or_app; right; left; reflexivity).
  eapply find_wp; [rewrite ra_put_get; exact I2| |].
  2:{ intros N. elim N. apply in_map_iff. exists r. split; [reflexivity|exact Hall]. }
  intros i sz2 gd3 Hin3 Hi Nz Hc. assert (mkRegion old sz2 gd3 = r) as Er.
  { pose proof (gi_nd _ _ _ _ I2) as ND. apply (lmap_Some _ old sz2 gd3 ND) in Hin3. apply (lmap_Some _ old sz gd ND) in Hall. rewrite Hin3 in Hall. injection Hall as -> ->. reflexivity. }
  rewrite Er in Hc. apply wp_bind.
  eapply (delete_open_wp g s1 (ra_get s1) (out old (rl_own LL1)) (rl_open LL1) _ _ r [rflight r] i); [rewrite ra_put_get; exact I2|exact Hi|exact Hc|exact Nz|].
  intros rs3 I3 E3 Lf3 SM3. change (mkRegs (out old (rl_own LL1)) (rl_open LL1) (rl_strict LL1) (rl_base LL1)) with (drop old LL1) in I3. cbn [ra_get rs_os] in E3.
  assert (forall rs4, rs_os rs4 = st_os s1 -> ginv g (ra_put rs4 s1) (drop old LL1) [rflight r] -> 
     wp (run (do! failed := act (on_os (memory_remap_fixed old sz new size)) in
      (if failed : bool then
         act (on_os (mem_copy new old (Z.min size sz))) ;;;
         p_os (deallocate_pages old sz gd)
       else
         act (on_os (memory_unmap (w64 (old - gd)) gd)) ;;;
         act (on_os (memory_unmap (w64 (old + page_align sz)) gd)) ;;;
         Ret tt) ;;;
      Ret (Some new))) (ra_put rs4 s1) (fun r s' =>
     match r with
     | None => anone g s LL s' /\ (errno (st_os s') = ENOMEM \/ tfull g s)
     | Some q => exists LL' m, hinv g s' LL' /\ hstep g s LL s' LL' (Some old) (Some (q, m)) /\ q mod 16 = 0 /\ (size <= m /\ m = get_large_size_class g size) /\ big g LL' q /\
         (forall i, 0 <= i < Z.min size sz -> mem (st_os s') (q + i) = mem (st_os s) (old + i))
     end) (fun f => sys_fault f \/ rng_fault f)) as REST.
  2:{ unfold stats_large_deallocate. destruct (STATS g).
      - apply wp_modify. eapply (REST (set_rs_ra _ rs3)); [exact E3|]. eapply gi_ra_misc; [exact I3|reflexivity..|]. apply (rq_rng _ _ (gi_rq _ _ _ _ I3)).
      - apply wp_ret. apply (REST rs3); auto. }
  clear rs3 I3 E3 Lf3 SM3. intros rs4 E4 I4. set (s2 := ra_put rs4 s1) in *.
  assert ((old - gd) mod 4096 = 0) as M6 by (apply mod_sub2; auto). assert ((sz + 2 * gd) mod 4096 = 0) as M7 by (replace (2 * gd) with (gd + gd) by lia; apply mod_add2; auto; apply mod_add2; auto).
  assert (forall q, fl_in (rflight r) q = (old - gd <=? q * 4096) && (q * 4096 <? old + sz + gd)) as P1. { intros q. cbn [rflight fl_in]. unfold region_span. cbn [r rg_p rg_size rg_guard]. rewrite pg_iff by auto. f_equal. lia. }
  (* what remains to be shown about the operating system *)
  assert (forall oP o', poke (fun x => new <= x < new + m) (st_os s1) oP -> os_chg (fun q => fl_in (rflight r) q = true) oP o' ->
      (forall i, 0 <= i < Z.min size sz -> mem oP (new + i) = mem (st_os s1) (old + i)) ->
      (rl_strict LL1 = true -> unrefused o' -> forall q, fl_in (rflight r) q = true -> pages o' q = None) ->
      exists LL' m, hinv g (set_st_os o' s2) LL' /\ hstep g s LL (set_st_os o' s2) LL' (Some old) (Some (new, m)) /\ new mod 16 = 0 /\ (size <= m /\ m = get_large_size_class g size) /\ big g LL' new /\
         (forall i, 0 <= i < Z.min size sz -> mem o' (new + i) = mem (st_os s) (old + i))) as FIN.
  { intros oP o' PK OC MM GO. exists (drop old LL1), m.
    set (sP := set_st_os oP s1). assert (hinv g sP LL1) as HIP by (eapply hinv_poke; eauto).
    assert (hstep g s LL sP LL1 None (Some (new, m))) as HSP by (eapply hstep_poke; eauto).
    assert (ginv g (set_st_os oP s2) (drop old LL1) [rflight r]) as I5.
    { apply ginv_poke; [exact I4|cbn; rewrite E4; exact (pk_later _ _ _ PK)|cbn; rewrite E4; apply PK|cbn; rewrite E4; apply PK]. }
    assert (ginv g (set_st_os o' s2) (drop old LL1) []) as I6.
    { apply (gi_lose g s2 oP o' (drop old LL1) [rflight r] [] I5); [eapply onward_chg; exact OC|..].
      - intros q Nf. apply (oc_pages _ _ _ OC). intros H. apply Nf. exists (rflight r). cbn; auto.
      - intros x Nf. apply (oc_mem _ _ _ OC). intros H. apply Nf. exists (rflight r). cbn; auto.
      - intros SL Q q (f0 & [<-|[]] & Hq). exact (GO SL Q q Hq). }
    pose proof (hi_inv _ _ _ HIP) as IP.
    assert (hstep g sP LL1 (set_st_os o' s2) (drop old LL1) (Some old) None) as HS2.
    { apply (large_hstep g sP (set_st_os o' s2) LL1 (drop old LL1) (Some old) None [] IP); auto; try discriminate.
      - eapply os_chg_mono; [|exact OC]. intros q Hq Hk. rewrite kept_drop in Hk. pose proof (ginv_open g sP LL1 [] r IP Hin1) as IPo.
        apply (user_away g sP (opened r LL1) [rflight r] (fl_in (rflight r)) q IPo); [right; apply in_or_app; right; left; reflexivity|exact Hq|exact Hk].
      - intros p0 n0 gd0. cbn [drop rl_own]. rewrite out_In. cbn. split; [intros [H N]; left; split; congruence|intros [[H N]|[=]]; split; congruence].
      - intros p0 [= <-]. apply in_map_iff. eexists. split; [|exact Hin1]. reflexivity.
      - intros O0. split; discriminate. }
    split; [|split; [|split; [|split; [split; [exact Lm|reflexivity]|split]]]].
    - eapply hinv_same; [exact HI1|exact I6|constructor; reflexivity|reflexivity|exact (hi_open _ _ _ HI1)|]. intros r0 Hr. cbn [drop rl_own] in Hr. apply out_In in Hr. apply (hi_sized _ _ _ HI1). apply Hr.
    - eapply hstep_move; [exact HSP|exact BO|exact HS2|exact HIP].
    - apply Z.mod_divide in Pm; [|lia]. destruct Pm as [z ->]. replace (z * 4096) with (z * 256 * 16) by lia. apply Z.mod_mul. lia.
    - intros sz0 gd0 H. cbn [drop rl_own] in H. apply out_In in H. destruct H as [H _].
      assert (sz0 = m) as ->. { eapply (block_fun g s1 LL1 [] I1); [right; exists gd0; exact H|exact BN]. } lia.
    - intros j Hj. assert (block g sP LL1 new m) as BNP by (apply HSP; right; reflexivity).
      change (mem o') with (mem (st_os (set_st_os o' s2))). rewrite (hs_mem _ _ _ _ _ _ _ HS2 new m (new + j) BNP); [|congruence|lia].
      change (mem (st_os sP)) with (mem oP). rewrite MM by auto. apply (hs_mem _ _ _ _ _ _ _ HS1 old sz); [auto|discriminate|lia]. }
  assert (forall x, new <= x < new + m -> pages (st_os s1) (page_of x) = Some PRW) as RWn by (intros x Hx; eapply (block_rw g s1 LL1 [] I1); [exact BN|exact Hx]).
  apply wp_run_pbind, wp_run_act. unfold on_os. apply wp_zoom. cbn [s2 ra_put set_st_ra set_st_os st_os]. rewrite E4.
  eapply wp_mono; [apply memory_remap_fixed_wp| |auto]. intros [|] o5.
  - intros ->. apply wp_run_pbind. apply wp_run_pbind, wp_run_act. unfold on_os. apply wp_zoom. cbn [set_st_os st_os]. apply mem_copy_wp.
    { intros Hcp. split; apply rw_all; auto; intros x Hx; change (pages (failed_os (st_os s1))) with (pages (st_os s1)); [rewrite RWn by lia; reflexivity|]. rewrite (block_rw g s1 LL1 [] I1 old sz x BO1 ltac:(lia)). reflexivity. }
    set (oP := copied_os new old (Z.min size sz) (failed_os (st_os s1))).
    assert (poke (fun x => new <= x < new + m) (st_os s1) oP) as PK.
    { destruct (poke_copy new old (Z.min size sz) (failed_os (st_os s1))) as [a b c d]; [intros x Hx; apply RWn; lia|]. constructor; [exact a|exact b| |eapply later_trans; [|exact d]; split; [reflexivity|cbn; lia]]. intros x Hx. apply c. lia. }
    apply wp_pos. assert (ginv g (set_st_os oP s2) (drop old LL1) [rflight r]) as I5.
    { apply ginv_poke; [exact I4|cbn; rewrite E4; exact (pk_later _ _ _ PK)|cbn; rewrite E4; apply PK|cbn; rewrite E4; apply PK]. }
    cbn [set_st_os st_os].
    eapply wp_mono; [apply (deallocate_pages_wp g s2 oP (drop old LL1) [] (rflight r) old sz gd I5); change (2 ^ 48) with 281474976710656; try lia| |auto].
    { intros q. reflexivity. }
    intros [] o6 (_ & OC & _ & FR). apply wp_run_ret. apply (FIN oP o6 PK OC).
    2:{ intros SL Q. destruct FR as [FR|[FR _]]; [exact FR|]. elim (refused_spent LL1 _ _ FR (onward_chg _ _ _ OC) SL Q). }
    intros j Hj. unfold oP, copied_os. cbn [set_mem mem failed_os]. replace ((new <=? new + j) && (new + j <? new + Z.min size sz)) with true by lia. replace (new + j - new + old) with (old + j) by lia. reflexivity.
  - intros (-> & _). set (oP := set_mem (mem (moved_os old sz new size (st_os s1))) (st_os s1)).
    assert (forall q, in_pages new size q = true -> in_pages new m q = true) as SI by (intros q; apply in_pages_sub; lia).
    assert (poke (fun x => new <= x < new + m) (st_os s1) oP) as PK.
    { constructor; [reflexivity|..]; cbn [oP moved_os set_mem mem].
      - intros x. destruct (in_pages new size (page_of x)) eqn:Q; [|intros H; elim H; reflexivity]. intros _. apply RWn. apply in_pages_addr; auto.
      - intros x Hx. destruct (in_pages new size (page_of x)) eqn:Q; [|reflexivity]. elim Hx. apply in_pages_addr; auto.
      - split; [reflexivity|apply le_n]. }
    assert (os_chg (fun q => fl_in (rflight r) q = true) oP (moved_os old sz new size (st_os s1))) as OC1.
    { constructor; cbn [oP moved_os map_pages set_pages set_mem next_sys pages mem sysq sysn entq entn fuel]; auto.
      intros q Hq. destruct (in_pages new size q) eqn:Q1.
      - symmetry. apply (rk_rw _ _ K2). cbn [r2 rg_p rg_size]. auto.
      - destruct (in_pages old sz q) eqn:Q2; [|reflexivity]. elim Hq. rewrite P1. rewrite pg_iff in Q2 by auto. lia. }
    set (o5 := moved_os old sz new size (st_os s1)) in *.
    assert (page_align sz = sz) as PA. { rewrite page_align_small by lia. apply Z.mod_divide in Szm; [|lia]. destruct Szm as [z ->]. replace (z * 4096 + 4095) with (4095 + z * 4096) by lia. rewrite Z.div_add by lia. change (4095 / 4096) with 0. lia. }
    rewrite PA, (w64_small (old - gd)), (w64_small (old + sz)) by (change (2 ^ 64) with 18446744073709551616; lia).
    assert (forall a o o', a mod 4096 = 0 -> old - gd <= a -> a + gd <= old + sz + gd -> forall b : bool, (if b then o' = failed_os o else o' = unmapped_os a gd o /\ a mod 4096 = 0 /\ gd <> 0) -> os_chg (fun q => fl_in (rflight r) q = true) o o') as UN.
    { intros a o o' Ha H1 H2 [|]; [intros ->; apply os_chg_failed|]. intros (-> & _). apply os_chg_unmapped. intros q Hq. rewrite pg_iff in Hq by auto. rewrite P1. lia. }
    apply wp_run_pbind. apply wp_run_pbind, wp_run_act. unfold on_os. apply wp_zoom. eapply wp_mono; [apply wp_conj; [apply memory_unmap_wp|apply memory_unmap_wp2]| |intros ? []; auto]. intros b1 o6 [H6 V6]. cbn [set_st_os st_os] in H6, V6. apply UN in H6; auto; try lia.
    apply wp_run_pbind, wp_run_act. unfold on_os. apply wp_zoom. eapply wp_mono; [apply wp_conj; [apply memory_unmap_wp|apply memory_unmap_wp2]| |intros ? []; auto]. intros b2 o7 [H7 V7]. cbn [set_st_os st_os] in H7, V7. apply UN in H7; auto; try lia; [|apply mod_add2; auto].
    apply wp_run_ret, wp_run_ret. apply (FIN oP o7 PK).
    3:{ intros SL Q q Hq. destruct b1.
        { destruct V6 as [-> V6]. elim (spent_failed LL1 o5 V6 SL). eapply unrefused_back; [|exact Q]. eapply onward_chg; exact H7. }
        destruct b2. { destruct V7 as [-> V7]. elim (spent_failed LL1 o6 V7 SL Q). }
        rewrite V7, V6. cbn [unmapped_os map_pages set_pages next_sys pages]. rewrite !pg_iff by (auto; apply mod_add2; auto).
        destruct ((old + sz <=? q * 4096) && (q * 4096 <? old + sz + gd)) eqn:Q1; [reflexivity|].
        destruct ((old - gd <=? q * 4096) && (q * 4096 <? old - gd + gd)) eqn:Q2; [reflexivity|].
        unfold o5, moved_os. cbn [set_mem map_pages set_pages next_sys pages].
        destruct (in_pages new size q) eqn:Q3.
        { exfalso. apply (user_away g s1 (opened r LL1) [rflight r] (fl_in (rflight r)) q I2); [right; apply in_or_app; right; left; reflexivity|exact Hq|].
          right. exists r2. split; [cbn [opened rl_own]; apply out_In; split; [exact Hin2|cbn; congruence]|]. unfold region_span. cbn [r2 rg_p rg_size rg_guard].
          apply SI in Q3. revert Q3. apply in_pages_sub; lia. }
        rewrite pg_iff by auto. rewrite P1 in Hq. replace ((old <=? q * 4096) && (q * 4096 <? old + sz)) with true by lia. reflexivity. }
    + eapply os_chg_trans; [exact OC1|]. eapply os_chg_trans; eauto.
    + intros j Hj. unfold oP, o5, moved_os. cbn [set_mem mem]. replace (in_pages new size (page_of (new + j))) with true.
      * replace ((sz + 4095) / 4096 * 4096) with sz. { replace (new + j - new <? sz) with true by lia. replace (new + j - new + old) with (old + j) by lia. reflexivity. }
        apply Z.mod_divide in Szm; [|lia]. destruct Szm as [z ->]. replace (z * 4096 + 4095) with (4095 + z * 4096) by lia. rewrite Z.div_add by lia. change (4095 / 4096) with 0. lia.
      * symmetry. unfold in_pages; cbv zeta beta. pose proof (Z.div_le_mono new (new + j) 4096 ltac:(lia) ltac:(lia)). pose proof (Z.div_le_mono (new + j) (new + size - 1) 4096 ltac:(lia) ltac:(lia)).
        unfold page_of. replace (new + size + 4095) with (new + size - 1 + 1 * 4096) by lia. rewrite Z.div_add by lia. lia.
Qed.

(** ** realloc of a live block *)
Lemma block_al g s LL p n : hinv g s LL -> block g s LL p n -> p mod 16 = 0.
Proof.
  intros HI [(a & k & i & j & SB & _)|(gd & B)].
  - change 16 with (2 ^ 4). eapply sblk_align; [apply HI|exact SB|lia|]. apply (class_facts_all g _ (proj2 (proj1 SB))).
  - pose proof (gi_reg _ _ _ _ (hi_inv _ _ _ HI) _ B) as [Pm _ _ _ _ _ _]. cbn in Pm. apply Z.mod_divide; [lia|]. apply Z.mod_divide in Pm; [|lia]. eapply Z.divide_trans; [|exact Pm]. exists 256. reflexivity.
Qed.
Lemma hstep_same g s LL p n : hinv g s LL -> block g s LL p n -> hstep g s LL s LL (Some p) (Some (p, n)).
Proof.
  intros HI B. constructor; auto.
  - intros q m. split; [|intros [[H _]|[= <- <-]]; auto]. intros H. destruct (Z.eq_dec q p) as [->|N]; [|left; split; congruence]. right. rewrite (block_fun g s LL [] (hi_inv _ _ _ HI) _ _ _ B H). reflexivity.
  - intros q m m' [= <- <-] _. reflexivity.
  - constructor; auto using later_refl.
    + intros a k C. rewrite moves_same. apply cp_refl.
    + intros a k i j q m [= <- <-] N. elim N. reflexivity.
    + intros a k i j q m [= <- <-] N. elim N. reflexivity.
    + intros a k i j q [= <-] N. elim (N n). reflexivity.
Qed.
Lemma realloc_wp g tid s LL old n0 n : hinv g s LL -> ra_leftover (st_ra s) = false -> 0 <= n < 2 ^ 64 -> 0 < old < 2 ^ 64 -> block g s LL old n0 -> big g LL old ->
  wp (run (h_realloc g tid old n)) s (fun r s' =>
     match r with
     | None => anone g s LL s' /\ (errno (st_os s') = ENOMEM \/ tfull g s /\ max_slab_size_class g < n + canary_size g)
     | Some q => exists LL' m, hinv g s' LL' /\ hstep g s LL s' LL' (Some old) (Some (q, m)) /\ q mod 16 = 0 /\ n <= m /\ big g LL' q /\
         (forall i, 0 <= i < Z.min n n0 -> mem (st_os s') (q + i) = mem (st_os s) (old + i))
     end) (ralloc_fault g s).
Proof.
  intros HI Le Hn Ho B BG. pose proof HI as [I O S A C SC]. pose proof (max_slab_bounds g) as MB. pose proof (canary_le g) as CB. destruct (adjust_spec g n Hn) as (A1 & A2 & A3).
  unfold h_realloc. set (v := adjust_size_for_canary g n) in *. replace (old =? 0) with false by lia.
  set (size := if max_slab_size_class g <? v then get_large_size_class g v else v).
  destruct (large_any g v A1) as (G1 & G2 & G3).
  destruct ((max_slab_size_class g <? v) && (size =? 0)) eqn:Q0.
  { apply wp_run_pbind. unfold set_errno_to. apply wp_run_act. unfold on_os. apply wp_zoom, wp_modify, wp_run_ret. split; [|left; reflexivity]. apply anone_errno, anone_refl; [left; auto|auto]. }
  assert (0 <= size < 2 ^ 64) as Hsz by (unfold size; destruct (max_slab_size_class g <? v); lia).
  assert (max_slab_size_class g < v -> v <= size /\ size mod 4096 = 0 /\ max_slab_size_class g < size) as SL.
  { intros H. unfold size in *. replace (max_slab_size_class g <? v) with true in * by lia. cbn [andb] in Q0. assert (v <= get_large_size_class g v) by (apply G2; lia). split; [auto|]. split; [apply G3; lia|lia]. }
  assert (v <= max_slab_size_class g -> size = v) as SS. { intros H. unfold size. replace (max_slab_size_class g <? v) with false by lia. reflexivity. }
  assert (v <= size) as Vs by (destruct (Z_le_gt_dec v (max_slab_size_class g)); [rewrite SS by auto; lia|apply SL; lia]). clearbody size.
  assert (n <= (if (0 <? size) && (size <=? max_slab_size_class g) then size - canary_size g else size)) as NS.
  { destruct ((0 <? n) && (n <=? max_slab_size_class g)) eqn:Q1; destruct ((0 <? size) && (size <=? max_slab_size_class g)) eqn:Q2; lia. }
  assert (max_slab_size_class g < size -> max_slab_size_class g < n + canary_size g) as NC.
  { intros H. destruct (Z_le_gt_dec v (max_slab_size_class g)) as [L|L]; [rewrite SS in H by auto; lia|]. destruct ((0 <? n) && (n <=? max_slab_size_class g)) eqn:Q1; lia. }
  assert (forall os, old_ok g s LL old n0 os -> wp (run (realloc_copy g tid old os size)) s (fun r s' =>
     match r with
     | None => anone g s LL s' /\ (errno (st_os s') = ENOMEM \/ tfull g s /\ max_slab_size_class g < n + canary_size g)
     | Some q => exists LL' m, hinv g s' LL' /\ hstep g s LL s' LL' (Some old) (Some (q, m)) /\ q mod 16 = 0 /\ n <= m /\ big g LL' q /\
         (forall i, 0 <= i < Z.min n n0 -> mem (st_os s') (q + i) = mem (st_os s) (old + i))
     end) (ralloc_fault g s)) as COPY.
  { intros os OK. eapply wp_mono; [apply (realloc_copy_wp g tid s LL old n0 os size HI Le Hsz ltac:(lia) B OK)| |auto]. intros [q|] s'.
    - intros (LL' & m & H1 & H2 & H3 & H4 & H5 & _ & H7). exists LL', m. split; [exact H1|]. split; [exact H2|]. split; [exact H3|]. split; [|split; [exact H5|]].
      + destruct (0 <? size) eqn:Q1; cbn [andb] in NS; [lia|]. pose proof (block_bounds g s' LL' [] (hi_inv _ _ _ H1) q m ltac:(apply H2; right; reflexivity)). lia.
      + intros i Hi. apply H7. lia.
    - intros (H1 & [H2|[H2 H3]]); auto. }
  assert (forall q, q = old -> n <= n0 -> exists LL' m, hinv g s LL' /\ hstep g s LL s LL' (Some old) (Some (q, m)) /\ q mod 16 = 0 /\ n <= m /\ big g LL' q /\
         (forall i, 0 <= i < Z.min n n0 -> mem (st_os s) (q + i) = mem (st_os s) (old + i))) as SAME.
  { intros q -> H. exists LL, n0. split; [auto|]. split; [apply hstep_same; auto|]. split; [eapply block_al; eauto|]. auto. }
  apply wp_run_pbind, wp_run_act, wp_get. destruct (in_slab_region old s) eqn:L.
  - destruct (old_size_slab g s LL old n0 HI B L) as (V1 & V2 & V3). unfold slab_usable_size. set (w := class_size g (snd (slab_size_class g s old))) in *.
    destruct ((size <=? max_slab_size_class g) && (si_size (get_size_info size) =? w)) eqn:Q2.
    + apply wp_run_ret. apply SAME; [reflexivity|]. destruct (gsi_spec g size ltac:(lia)) as (_ & K & _).
      destruct (Z.eqb_spec w 0) as [W|W]; destruct ((0 <? size) && (size <=? max_slab_size_class g)) eqn:Q1; lia.
    + apply COPY. left. auto.
  - apply wp_run_pbind, wp_run_act. unfold enforce_init. apply wp_bind, wp_get. rewrite (hinv_init _ _ _ HI). apply wp_ret.
    destruct (large_block _ _ _ _ _ HI L B) as (gd & Hin). pose proof (BG _ _ Hin) as BN0.
    apply wp_run_pbind, wp_run_act. unfold on_ra. apply wp_zoom. unfold realloc_find. apply wp_bind.
    assert (rl_all LL = rl_own LL) as EL by (unfold rl_all; rewrite O, app_nil_r; reflexivity).
    eapply find_wp; [rewrite ra_put_get; exact I| |].
    2:{ rewrite EL. intros N. elim N. apply in_map_iff. eexists. split; [|exact Hin]. reflexivity. }
    rewrite EL. intros i sz gd' Hin' Hi _ Hc. assert (sz = n0) as -> by (eapply (block_fun g s LL [] I); [right; exists gd'; exact Hin'|exact B]).
    apply wp_bind, wp_gets, wp_ret. rewrite Hc. cbn [rg_size rg_guard]. rewrite ra_put_get.
    assert (old_ok g s LL old n0 n0) as OK by (right; eauto).
    destruct (Z.eqb_spec n0 size) as [En|En]. { apply wp_run_ret. apply SAME; [reflexivity|]. subst size. lia. }
    destruct (Z.ltb_spec (max_slab_size_class g) size) as [Lg|Sm]; [|apply COPY; auto].
    destruct (Z.ltb_spec size n0) as [Sh|Gr].
    + assert (size mod 4096 = 0) as Sm4 by (destruct (Z_le_gt_dec v (max_slab_size_class g)) as [V|V]; [rewrite SS in Lg by auto; lia|apply SL; lia]).
      eapply wp_mono; [apply (realloc_shrink_wp g s LL old n0 gd' size HI Le Hin' ltac:(lia) Sm4)| |intros f [H|H]; left; [left|right; left]; auto]. intros [q|] s'.
      * intros (-> & LL' & H1 & H2 & H3 & H4). exists LL', size. split; [exact H1|]. split; [exact H2|]. split; [eapply block_al; [exact H1|apply H2; right; reflexivity]|].
        split; [lia|]. split; [|intros j Hj; apply H4; lia]. intros sz0 gd0 H. assert (sz0 = size) as -> by (eapply (block_fun g s' LL' [] (hi_inv _ _ _ H1)); [right; exists gd0; exact H|right; exists gd'; exact H3]). lia.
      * intros (H1 & H2). auto.
    + destruct (MREMAP_MOVE_THRESHOLD <=? Z.min size n0) eqn:Q3; [|apply COPY; auto].
      eapply wp_mono; [apply (realloc_mremap_wp g s LL old n0 gd' size HI Le Hin' ltac:(lia) ltac:(lia))| |intros f [H|H]; left; [left|right; left]; auto]. intros [q|] s'.
      * intros (LL' & m & H1 & H2 & H3 & H4 & H5 & H6). exists LL', m. split; [exact H1|]. split; [exact H2|]. split; [exact H3|]. split; [lia|]. split; [exact H5|]. intros j Hj. apply H6. lia.
      * intros (H1 & [H2|H2]); auto.
Qed.
