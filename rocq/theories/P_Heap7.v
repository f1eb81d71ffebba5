(** Effect of the size class operations on the set of blocks. *)
From Coq Require Import String ZArith List Bool Lia ZifyBool Permutation.
From Verif Require Import M_Base M_Config M_SizeClass M_Libdivide M_OS M_Random M_Slab M_Region M_Api M_Hist
  P_Base P_Count P_SizeClass P_Libdivide P_Random P_Bitmap P_Bitmap2 P_OS P_Links P_Slab1 P_Slab2 P_Slab3 P_Slab4 P_Slab5 P_Slab6 P_Slab7 P_Slab8 P_Slab9 P_Slab10 P_Slab11 P_Path
  P_Region P_Region2 P_Heap1 P_Heap2 P_Heap3 P_Heap4 P_Heap5 P_Heap6.
Import ListNotations.
Open Scope Z_scope.
Ltac Zify.zify_post_hook ::= idtac.

(** no stray write has hit a canary or a freed slot *)
Record clean (g : config) (s : state) : Prop := {
  cl_can : forall a k i j, class_in g a k -> 0 <= j < get_slots g k -> granted (st_cls s a k) i j = true -> canary_intact g k (st_os s) (st_cls s a k) i j;
  cl_zero : ZERO_ON_FREE g = true -> forall a k i j x, class_in g a k -> k <> 0 -> 0 <= i < get_metadata_max g (slab_size_of g k) -> 0 <= j < get_slots g k ->
    granted (st_cls s a k) i j = false ->
    sptr g k (st_cls s a k) i j <= x < sptr g k (st_cls s a k) i j + slot_size g k - canary_size g -> mem (st_os s) x = 0
}.
(** what a step does to the size classes and to the slots that stay allocated *)
Record hcls (g : config) (s s' : state) (rm : option Z) (add : option (Z * Z)) : Prop := {
  hc_os : later (st_os s) (st_os s');
  hc_path : forall a k, class_in g a k -> cpath g k (st_os s) (st_cls s a k) (moves g (st_cls s' a k) rm add) (st_os s') (st_cls s' a k);
  hc_slot : forall a k i j p, sblk g s a k i j p -> rm <> Some p -> sblk g s' a k i j p /\ can (st_cls s' a k) i = can (st_cls s a k) i /\
    forall x, p <= x < p + slot_size g k -> mem (st_os s') x = mem (st_os s) x;
  hc_fresh : forall a k i j p n, add = Some (p, n) -> rm <> Some p -> sblk g s' a k i j p -> canary_intact g k (st_os s') (st_cls s' a k) i j;
  hc_waf : forall a k i j p n, add = Some (p, n) -> rm <> Some p -> sblk g s' a k i j p -> is_init s = true -> WRITE_AFTER_FREE_CHECK g = true ->
    forall x, p <= x < p + usable_of g k -> mem (st_os s) x = 0;
  hc_back : forall a k i j p, sblk g s' a k i j p -> (forall n, add <> Some (p, n)) -> sblk g s a k i j p;
  hc_can : forall a k i j p, rm = Some p -> (forall n, add <> Some (p, n)) -> sblk g s a k i j p -> canary_intact g k (st_os s) (st_cls s a k) i j;
  hc_keep : forall a k i j p n, rm = Some p -> add = Some (p, n) -> sblk g s a k i j p -> sblk g s' a k i j p /\ can (st_cls s' a k) i = can (st_cls s a k) i /\
    forall x, p + usable_of g k <= x < p + slot_size g k -> mem (st_os s') x = mem (st_os s) x
}.
(** blocks after a step: [rm] is gone, [add] is new, all others are as before with the same contents *)
Record hstep (g : config) (s : state) (LL : regs) (s' : state) (LL' : regs) (rm : option Z) (add : option (Z * Z)) : Prop := {
  hs_blk : forall p n, block g s' LL' p n <-> (block g s LL p n /\ rm <> Some p) \/ add = Some (p, n);
  hs_new : forall p n m, add = Some (p, n) -> block g s LL p m -> rm = Some p;
  hs_mem : forall p n x, block g s LL p n -> rm <> Some p -> p <= x < p + n -> mem (st_os s') x = mem (st_os s) x;
  hs_clean : clean g s -> clean g s';
  hs_cls : hcls g s s' rm add;
  hs_base : rl_base LL' = rl_base LL;
  (* a new block has guards that fit its size; a block that stays in place keeps those it had *)
  hs_guard : rl_open LL = [] -> (rm = None -> rl_open LL' = []) /\ forall r, In r (rl_own LL') -> In r (rl_own LL) \/
    add = Some (rg_p r, rg_size r) /\ (guard_ok g (rg_size r) (rg_guard r) \/ rm = Some (rg_p r) /\ exists n, In (mkRegion (rg_p r) n (rg_guard r)) (rl_own LL))
}.
(** parts that only initialization and arena selection change *)
Record same_place (s s' : state) : Prop := {
  sp_base : st_base s' = st_base s; sp_start : st_start s' = st_start s; sp_end : st_end s' = st_end s;
  sp_ctr : st_ctr s' = st_ctr s; sp_ar : st_arena s' = st_arena s
}.
Lemma same_place_refl s : same_place s s. Proof. constructor; auto. Qed.
Lemma same_place_trans s1 s2 s3 : same_place s1 s2 -> same_place s2 s3 -> same_place s1 s3. Proof. intros [] []. constructor; congruence. Qed.

Lemma on_class_wp {A} g a k (m : M cstate A) s (Q : A -> state -> Prop) (E : fault -> Prop) : class_in g a k ->
  wp m (mkCst (st_os s) (st_cls s a k)) (fun r cs => Q r (put_cls a k (cs_c cs) (set_st_os (cs_os cs) s))) E -> wp (on_class g a k m) s Q E.
Proof.
  intros [Ha Hk] H. unfold on_class, in_range. replace (_ && _) with true by lia. apply wp_zoom. exact H.
Qed.

Section C.
Context (g : config) (s : state) (LL : regs) {X : list fl} (I : ginv g s LL X) (a k : Z) (C : class_in g a k).
Local Notation c := (st_cls s a k).
Local Notation S' o' c' := (put_cls a k c' (set_st_os o' s)).
Lemma put_at o' c' : st_cls (S' o' c') a k = c'. Proof. cbn. rewrite !Z.eqb_refl. reflexivity. Qed.
Lemma put_other o' c' a0 k0 : (a0 <> a \/ k0 <> k) -> st_cls (S' o' c') a0 k0 = st_cls s a0 k0.
Proof. intros H. cbn. replace (_ && _) with false by lia. reflexivity. Qed.
Lemma sblk_put o' c' a0 k0 i j p : c_start c' = c_start c ->
  sblk g (S' o' c') a0 k0 i j p <-> (a0 = a /\ k0 = k /\ 0 <= j < get_slots g k /\ granted c' i j = true /\ p = sptr g k c i j) \/ ((a0 <> a \/ k0 <> k) /\ sblk g s a0 k0 i j p).
Proof.
  intros Es. unfold sblk. destruct (Z.eq_dec a0 a) as [->|NA]; [destruct (Z.eq_dec k0 k) as [->|NK]|].
  - rewrite put_at, (sptr_ext g k c c' i j Es). split; [intros (_ & H); auto|]. intros [(_ & _ & H)|[N _]]; [auto|lia].
  - rewrite put_other by auto. split; [auto|]. intros [(_ & E & _)|[_ H]]; [contradiction|auto].
  - rewrite put_other by auto. split; [auto|]. intros [(E & _)|[_ H]]; [contradiction|auto].
Qed.
(** memory of other classes and of large blocks is not touched *)
Lemma away_mem o' a0 k0 x : os_in (cdom g c) (st_os s) o' -> class_in g a0 k0 -> (a0 <> a \/ k0 <> k) ->
  c_start (st_cls s a0 k0) <= x < c_start (st_cls s a0 k0) + CLASS_REGION_SIZE g -> mem o' x = mem (st_os s) x.
Proof.
  intros O C0 D Hx. apply (oi_mem _ _ _ O). eapply class_away; eauto. apply (in_class_addr g k0 _ (ginv_geom _ _ _ _ _ _ I C0)). exact Hx.
Qed.
Lemma away_region o' r x : os_in (cdom g c) (st_os s) o' -> In r (rl_own LL) -> rg_p r <= x < rg_p r + rg_size r -> mem o' x = mem (st_os s) x.
Proof.
  intros O Hr Hx. apply (oi_mem _ _ _ O). intros D. destruct (region_extent g s LL X I r Hr x Hx) as [H _].
  assert (In (region_span r) (map region_span (rl_own LL) ++ qspans (st_ra s) ++ map fl_in X)) as Hin by (apply in_or_app; left; apply in_map; auto).
  destruct (fixed_rest _ _ _ _ _ _ I Hin H). destruct (cdom_fixed _ _ _ _ _ _ _ I C D); congruence.
Qed.
Lemma slot_region a0 k0 i j : class_in g a0 k0 -> 0 <= j < get_slots g k0 -> 0 <= i < get_metadata_max g (slab_size_of g k0) ->
  c_start (st_cls s a0 k0) <= sptr g k0 (st_cls s a0 k0) i j /\ sptr g k0 (st_cls s a0 k0) i j + slot_size g k0 <= c_start (st_cls s a0 k0) + CLASS_REGION_SIZE g.
Proof.
  intros C0 Hj Hi. pose proof (ginv_geom _ _ _ _ _ _ I C0) as G. pose proof (slot_in_slab g k0 _ G i j Hj). pose proof (slab_in_region g k0 _ G i ltac:(lia)). lia.
Qed.
(** general form of a step of one class *)
Lemma inb_class a0 k0 i j p : sblk g s a0 k0 i j p -> inb g (st_cls s a0 k0) p = true.
Proof.
  intros (C0 & Hj & G & ->). destruct (slot_info _ _ _ _ I a0 k0 i j C0 Hj (granted_used _ _ _ G)) as (_ & _ & B1 & B2). pose proof (class_facts_all g k0 (proj2 C0)) as [].
  unfold inb. lia.
Qed.
Lemma inb_other a0 k0 a1 k1 i j p : class_in g a0 k0 -> sblk g s a1 k1 i j p -> (a0 <> a1 \/ k0 <> k1) -> inb g (st_cls s a0 k0) p = false.
Proof.
  intros C0 Hs D. destruct (inb g (st_cls s a0 k0) p) eqn:E; [|auto]. exfalso. unfold inb in E.
  destruct (sblk_loc _ _ _ _ I _ _ _ _ _ Hs) as [_ E1].
  pose proof (class_region_lo g s LL X I a0 k0 p C0 ltac:(lia)) as R. destruct (class_of_addr g s (gi_u _ _ _ _ I) (gi_pl _ _ _ _ I) a0 k0 p C0 R) as [_ E2]. rewrite E1 in E2. injection E2 as <- <-. lia.
Qed.
Lemma class_hstep o' c' rm add : ginv g (S' o' c') LL X ->
  os_in (cdom g c) (st_os s) o' -> c_start c' = c_start c ->
  (forall i j, 0 <= j < get_slots g k -> (granted c' i j = true <-> (granted c i j = true /\ rm <> Some (sptr g k c i j)) \/ add = Some (sptr g k c i j))) ->
  (forall i j p, add = Some p -> 0 <= j < get_slots g k -> granted c i j = true -> p = sptr g k c i j -> rm = Some p) ->
  (forall p, rm = Some p -> exists i j, sblk g s a k i j p /\ canary_intact g k (st_os s) c i j) ->
  (forall p, add = Some p -> exists i j, sblk g (S' o' c') a k i j p) ->
  (forall i j, 0 <= j < get_slots g k -> granted c i j = true -> rm <> Some (sptr g k c i j) -> can c' i = can c i /\
     forall x, sptr g k c i j <= x < sptr g k c i j + slot_size g k -> mem o' x = mem (st_os s) x) ->
  (forall i j, add = Some (sptr g k c i j) -> 0 <= j < get_slots g k -> granted c' i j = true -> canary_intact g k o' c' i j /\
     (WRITE_AFTER_FREE_CHECK g = true -> forall x, sptr g k c i j <= x < sptr g k c i j + usable_of g k -> mem (st_os s) x = 0)) ->
  cpath g k (st_os s) c (match add with Some p => [LA p] | None => [] end ++ match rm with Some p => [LF p] | None => [] end) o' c' ->
  (rm <> None -> add = None) ->
  (clean g s -> clean g (S' o' c')) ->
  hstep g s LL (S' o' c') LL rm (match add with Some p => Some (p, usable_of g k) | None => None end).
Proof.
  intros I' O Es Hg Hn Hrm Had Hm Hf Hp Hxor Hc.
  assert (forall p gd n, rm = Some p -> In (mkRegion p n gd) (rl_own LL) -> False) as RR.
  { intros p gd n E Hr. destruct (Hrm p E) as (i & j & Hs & _). destruct (sblk_loc _ _ _ _ I _ _ _ _ _ Hs) as [E1 _]. pose proof (region_p _ _ _ _ I _ Hr) as [Q _]. cbn in Q.
    rewrite (region_not_slab _ _ _ _ I _ Hr p) in E1; [discriminate|cbn; lia]. }
  assert (forall p a0 k0 i j, rm = Some p -> sblk g s a0 k0 i j p -> a0 = a /\ k0 = k) as RS.
  { intros p a0 k0 i j E Hs0. destruct (Hrm p E) as (i1 & j1 & Hs & _). destruct (sblk_inj _ _ _ _ I _ _ _ _ _ _ _ _ _ Hs Hs0) as (-> & -> & _). auto. }
  assert (forall q i j a0 k0, sblk g (S' o' c') a k i j q -> class_in g a0 k0 -> (a0 <> a \/ k0 <> k) -> inb g (st_cls (S' o' c') a0 k0) q = false) as OTH.
  { intros q i j a0 k0 Hs C0 D. destruct (inb g (st_cls (S' o' c') a0 k0) q) eqn:E; [|auto]. exfalso. unfold inb in E.
    destruct (sblk_loc _ _ _ _ I' _ _ _ _ _ Hs) as [_ E1].
    pose proof (class_region_lo g (S' o' c') LL X I' a0 k0 q C0 ltac:(lia)) as R. destruct (class_of_addr g _ (gi_u _ _ _ _ I') (gi_pl _ _ _ _ I') a0 k0 q C0 R) as [_ E2]. rewrite E1 in E2. injection E2 as <- <-. lia. }
  assert (forall a0 k0 i j p n, match add with Some p => Some (p, usable_of g k) | None => None end = Some (p, n) -> rm <> Some p -> sblk g (S' o' c') a0 k0 i j p ->
    a0 = a /\ k0 = k /\ 0 <= j < get_slots g k /\ granted c' i j = true /\ p = sptr g k c i j) as FR.
  { intros a0 k0 i j p n E N Hs. destruct add as [p0|]; [|discriminate]. injection E as -> <-. destruct (Had p eq_refl) as (i1 & j1 & Hs1).
    destruct (sblk_inj _ _ _ _ I' _ _ _ _ _ _ _ _ _ Hs1 Hs) as (-> & -> & -> & ->). apply sblk_put in Hs; [|auto]. destruct Hs as [H|[D _]]; [tauto|lia]. }
  constructor; [| | |exact Hc| |reflexivity|auto].
  - intros p n. split.
    + intros [(a0 & k0 & i & j & Hs & ->)|(gd & Hr)].
      * apply sblk_put in Hs; [|auto]. destruct Hs as [(-> & -> & Hj & G & ->)|[D Hs]].
        -- apply Hg in G; [|auto]. destruct G as [[G N]|G].
           ++ left. split; [|auto]. left. exists a, k, i, j. split; [|auto]. split; auto.
           ++ right. rewrite G. reflexivity.
        -- left. split; [left; eauto 8|]. intros E. destruct (RS p _ _ _ _ E Hs). lia.
      * left. split; [right; eauto|]. intros E. eapply RR; eauto.
    + intros [[[(a0 & k0 & i & j & Hs & ->)|(gd & Hr)] N]|E].
      * left. exists a0, k0, i, j. split; [|auto]. apply sblk_put; [auto|]. destruct (Z.eq_dec a0 a) as [->|NA]; [destruct (Z.eq_dec k0 k) as [->|NK]|]; auto.
        left. destruct Hs as (_ & Hj & G & ->). split; [auto|]. split; [auto|]. split; [auto|]. split; [|auto]. apply Hg; auto.
      * right. eauto.
      * destruct add as [p0|]; [|discriminate]. injection E as -> <-. destruct (Had p eq_refl) as (i & j & Hs). left. eauto 8.
  - intros p n m E Hb. destruct add as [p0|]; [|discriminate]. injection E as -> <-. destruct (Had p eq_refl) as (i & j & Hs).
    apply sblk_put in Hs; [|auto]. destruct Hs as [(_ & _ & Hj & G & Ep)|[D _]]; [|lia].
    destruct (Had p eq_refl) as (i0 & j0 & Hs0). destruct (sblk_loc _ _ _ _ I' _ _ _ _ _ Hs0) as [L1 L2].
    change (in_slab_region p s = true) in L1. change (slab_size_class g s p = (a, k)) in L2.
    destruct Hb as [(a1 & k1 & i1 & j1 & Hb & _)|(gd & Hb)].
    + destruct (sblk_loc _ _ _ _ I _ _ _ _ _ Hb) as [_ L3]. rewrite L2 in L3. injection L3 as <- <-. destruct Hb as (_ & Hj1 & G1 & Ep1). eauto.
    + pose proof (region_p _ _ _ _ I _ Hb) as [Q _]. cbn in Q. rewrite (region_not_slab _ _ _ _ I _ Hb p) in L1; [discriminate|cbn; lia].
  - intros p n x Hb N Hx. change (st_os (S' o' c')) with o'. destruct Hb as [(a0 & k0 & i & j & Hs & ->)|(gd & Hr)].
    + pose proof Hs as (C0 & Hj & G & Ep). destruct (Z.eq_dec a0 a) as [->|NA]; [destruct (Z.eq_dec k0 k) as [->|NK]|].
      * subst p. eapply Hm; eauto. pose proof (usable_bounds g k (proj2 C0)). lia.
      * destruct (slot_info _ _ _ _ I a k0 i j C0 Hj (granted_used _ _ _ G)) as (_ & _ & B1 & B2). pose proof (usable_bounds g k0 (proj2 C0)).
        eapply (away_mem o' a k0); eauto. subst p. lia.
      * destruct (slot_info _ _ _ _ I a0 k0 i j C0 Hj (granted_used _ _ _ G)) as (_ & _ & B1 & B2). pose proof (usable_bounds g k0 (proj2 C0)).
        eapply (away_mem o' a0 k0); eauto. subst p. lia.
    + eapply away_region; eauto.
  - assert (later (st_os s) o') as LT by (eapply later_in; exact O).
    constructor.
    + exact LT.
    + intros a0 k0 C0. change (st_os (S' o' c')) with o'. destruct (Z.eq_dec a0 a) as [->|NA]; [destruct (Z.eq_dec k0 k) as [->|NK]|].
      * rewrite put_at. rewrite (moves_ext g c c' _ _ Es).
        assert (moves g c rm (match add with Some p => Some (p, usable_of g k) | None => None end) = match add with Some p => [LA p] | None => [] end ++ match rm with Some p => [LF p] | None => [] end) as ->; [|exact Hp].
        destruct add as [p|].
        -- destruct rm as [q|]; [discriminate Hxor; discriminate|]. rewrite moves_add. destruct (Had p eq_refl) as (i & j & Hs). apply sblk_put in Hs; [|auto].
           assert (inb g c p = true) as ->; [|reflexivity]. destruct (Had p eq_refl) as (i0 & j0 & Hs0).
           rewrite <- (inb_ext g c c' p Es). pose proof (slot_info _ _ _ _ I' a k i0 j0 C (proj1 (proj2 Hs0)) (granted_used _ _ _ (proj1 (proj2 (proj2 Hs0))))) as SI. destruct Hs0 as (_ & Hj0 & G0 & E0).
           rewrite put_at in SI, E0. destruct SI as (_ & _ & B1 & B2). subst p. pose proof (class_facts_all g k (proj2 C)) as []. unfold inb. lia.
        -- destruct rm as [q|]; [|reflexivity]. rewrite moves_rm. destruct (Hrm q eq_refl) as (i & j & Hs & _). rewrite (inb_class _ _ _ _ _ Hs). reflexivity.
      * rewrite put_other by auto. rewrite moves_out; [apply cpath_stay; auto| |].
        -- intros q E. destruct (Hrm q E) as (i & j & Hs & _). eapply inb_other; eauto.
        -- intros q n E. destruct add as [q0|]; [|discriminate]. injection E as -> <-. destruct (Had q eq_refl) as (i & j & Hs). rewrite <- (put_other o' c') by auto. eapply (OTH q i j); eauto.
      * rewrite put_other by auto. rewrite moves_out; [apply cpath_stay; auto| |].
        -- intros q E. destruct (Hrm q E) as (i & j & Hs & _). eapply inb_other; eauto.
        -- intros q n E. destruct add as [q0|]; [|discriminate]. injection E as -> <-. destruct (Had q eq_refl) as (i & j & Hs). rewrite <- (put_other o' c') by auto. eapply (OTH q i j); eauto.
    + intros a0 k0 i j p Hs N. change (st_os (S' o' c')) with o'. destruct (Z.eq_dec a0 a) as [->|NA]; [destruct (Z.eq_dec k0 k) as [->|NK]|].
      * pose proof Hs as (_ & Hj & G & ->). rewrite put_at. split; [|apply Hm; auto]. apply sblk_put; [auto|]. left. split; [auto|]. split; [auto|]. split; [auto|]. split; [|auto]. apply Hg; auto.
      * split; [apply sblk_put; auto|]. rewrite put_other by auto. split; [auto|]. intros x Hx0. pose proof Hs as (C0 & Hj & G & ->).
        destruct (slot_info _ _ _ _ I a k0 i j C0 Hj (granted_used _ _ _ G)) as (_ & _ & B1 & B2). eapply (away_mem o' a k0); eauto. lia.
      * split; [apply sblk_put; auto|]. rewrite put_other by auto. split; [auto|]. intros x Hx0. pose proof Hs as (C0 & Hj & G & ->).
        destruct (slot_info _ _ _ _ I a0 k0 i j C0 Hj (granted_used _ _ _ G)) as (_ & _ & B1 & B2). eapply (away_mem o' a0 k0); eauto. lia.
    + intros a0 k0 i j p n E N Hs. destruct (FR a0 k0 i j p n E N Hs) as (-> & -> & Hj & G & ->). rewrite put_at. change (st_os (S' o' c')) with o'. apply Hf; auto. destruct add; [|discriminate]. injection E as <- _. reflexivity.
    + intros a0 k0 i j p n E N Hs _ W x Hx0. destruct (FR a0 k0 i j p n E N Hs) as (-> & -> & Hj & G & ->). apply (Hf i j); auto. destruct add; [|discriminate]. injection E as <- _. reflexivity.
    + intros a0 k0 i j p Hs N. apply sblk_put in Hs; [|auto]. destruct Hs as [(-> & -> & Hj & G & ->)|[_ Hs]]; [|auto].
      apply Hg in G; [|auto]. destruct G as [[G _]|G]; [split; auto|]. exfalso. apply (N (usable_of g k)). rewrite G. reflexivity.
    + intros a0 k0 i j p E _ Hs. destruct (Hrm p E) as (i1 & j1 & Hs1 & Hc1). destruct (sblk_inj _ _ _ _ I _ _ _ _ _ _ _ _ _ Hs1 Hs) as (-> & -> & -> & ->). exact Hc1.
    + intros a0 k0 i j p n E E' _. rewrite (Hxor ltac:(congruence)) in E'. discriminate.
Qed.

Lemma byte_step m x : 0 <= x -> le_of_bytes (map (byte_of x) (zrange 0 m)) = x mod 256 ^ (Z.max 0 m).
Proof.
  intros Hx. destruct (Z_le_gt_dec m 0) as [L|L]; [rewrite zrange_nil by lia; rewrite Z.max_l by lia; cbn; rewrite Z.mod_1_r; reflexivity|].
  replace m with (Z.of_nat (Z.to_nat m)) by lia. clear L. revert x Hx. induction (Z.to_nat m) as [|n IH]; intros x Hx; [cbn; rewrite Z.mod_1_r; reflexivity|].
  rewrite zrange_cons by lia. cbn [map le_of_bytes].
  assert (map (byte_of x) (zrange (0 + 1) (Z.of_nat (S n))) = map (byte_of (x / 256)) (zrange 0 (Z.of_nat n))) as ->.
  { replace (Z.of_nat (S n)) with (Z.of_nat n + 1) by lia. unfold zrange. replace (Z.of_nat n + 1 - (0 + 1)) with (Z.of_nat n - 0) by lia.
    assert (forall k0 a0, 0 <= a0 -> map (byte_of x) (zseq (a0 + 1) k0) = map (byte_of (x / 256)) (zseq a0 k0)) as T.
    { induction k0 as [|k0 IHk]; intros a0 Ha; [reflexivity|]. cbn [zseq map]. f_equal; [|apply IHk; lia].
      unfold byte_of. change 256 with (2 ^ 8). rewrite <- Z.shiftr_div_pow2 by lia. rewrite Z.shiftr_shiftr by lia. f_equal. f_equal. lia. }
    apply (T _ 0). lia. }
  rewrite IH by (apply Z.div_pos; lia). rewrite !Z.max_r by lia. unfold byte_of. rewrite Z.mul_0_r, Z.shiftr_0_r. change 255 with (Z.ones 8). rewrite Z.land_ones by lia. change (2 ^ 8) with 256.
  rewrite Nat2Z.inj_succ, Z.pow_succ_r by lia. rewrite (Z.rem_mul_r x 256 (256 ^ Z.of_nat n)) by lia. reflexivity.
Qed.
Lemma u64_stored m p v : 0 <= v < 2 ^ 64 -> (forall x, p <= x < p + 8 -> m x = byte_of v (x - p)) -> u64_at m p = v.
Proof.
  intros Hv H. unfold u64_at. rewrite (map_ext_in m (fun x => byte_of v (x - p))).
  - assert (map (fun x => byte_of v (x - p)) (zrange p (p + 8)) = map (byte_of v) (zrange 0 8)) as ->.
    { unfold zrange. replace (p + 8 - p) with 8 by lia. replace (8 - 0) with 8 by lia. change (Z.to_nat 8) with 8%nat. cbn [zseq map].
      repeat match goal with |- _ :: _ = _ :: _ => apply f_equal2; [apply f_equal; lia|] end. reflexivity. }
    rewrite byte_step by lia. rewrite Z.mod_small; [reflexivity|]. exact Hv.
  - intros x Hx. apply H. apply in_zrange in Hx. lia.
Qed.
Lemma u64_same m m' p : (forall x, p <= x < p + 8 -> m' x = m x) -> u64_at m' p = u64_at m p.
Proof. intros H. unfold u64_at. f_equal. apply map_ext_in. intros x Hx. apply H. apply in_zrange in Hx. lia. Qed.
Lemma canary_same o o' c0 c1 i j : sptr g k c1 i j = sptr g k c0 i j -> can c1 i = can c0 i -> 16 <= slot_size g k ->
  (forall x, sptr g k c0 i j <= x < sptr g k c0 i j + slot_size g k -> mem o' x = mem o x) ->
  canary_intact g k o c0 i j -> canary_intact g k o' c1 i j.
Proof.
  intros E1 E2 S H K. unfold canary_intact in *. intros A B. rewrite E1, E2. rewrite <- (K A B). apply u64_same. intros x Hx. apply H. lia.
Qed.

(** clean after a step of one class *)
Lemma class_clean o' c' : os_in (cdom g c) (st_os s) o' -> c_start c' = c_start c ->
  (forall i j, 0 <= j < get_slots g k -> granted c' i j = true -> canary_intact g k o' c' i j) ->
  (ZERO_ON_FREE g = true -> k <> 0 -> forall i j x, 0 <= i < get_metadata_max g (slab_size_of g k) -> 0 <= j < get_slots g k ->
     granted c' i j = false -> sptr g k c i j <= x < sptr g k c i j + slot_size g k - canary_size g -> mem o' x = 0) ->
  clean g s -> clean g (S' o' c').
Proof.
  intros O Es H1 H2 [A B]. constructor.
  - intros a0 k0 i j C0 Hj. destruct (Z.eq_dec a0 a) as [->|NA]; [destruct (Z.eq_dec k0 k) as [->|NK]|].
    + rewrite put_at. apply H1. auto.
    + rewrite put_other by auto. intros G. pose proof (A a k0 i j C0 Hj G) as K. unfold canary_intact in *. intros Sc Nk. rewrite <- (K Sc Nk). apply u64_same. intros x Hx.
      destruct (slot_info _ _ _ _ I a k0 i j C0 Hj (granted_used _ _ _ G)) as (_ & _ & B1 & B2). pose proof (class_facts_all g k0 (proj2 C0)) as [].
      apply (away_mem o' a k0); auto. lia.
    + rewrite put_other by auto. intros G. pose proof (A a0 k0 i j C0 Hj G) as K. unfold canary_intact in *. intros Sc Nk. rewrite <- (K Sc Nk). apply u64_same. intros x Hx.
      destruct (slot_info _ _ _ _ I a0 k0 i j C0 Hj (granted_used _ _ _ G)) as (_ & _ & B1 & B2). pose proof (class_facts_all g k0 (proj2 C0)) as [].
      apply (away_mem o' a0 k0); auto. lia.
  - intros ZF a0 k0 i j x C0 Nk Hi Hj. pose proof (canary_le g). destruct (Z.eq_dec a0 a) as [->|NA]; [destruct (Z.eq_dec k0 k) as [->|NK]|].
    + rewrite put_at. rewrite (sptr_ext g k c c') by auto. intros. eapply H2; eauto.
    + rewrite put_other by auto. intros G Hx. pose proof (slot_region a k0 i j C0 Hj Hi). change (st_os (S' o' c')) with o'. rewrite (away_mem o' a k0); auto; [|lia]. eapply B; eauto.
    + rewrite put_other by auto. intros G Hx. pose proof (slot_region a0 k0 i j C0 Hj Hi). change (st_os (S' o' c')) with o'. rewrite (away_mem o' a0 k0); auto; [|lia]. eapply B; eauto.
Qed.

Lemma same_place_put o' c' : same_place s (S' o' c'). Proof. constructor; reflexivity. Qed.
Lemma slot_max i j : 0 <= j < get_slots g k -> used c i j = true -> 0 <= i < get_metadata_max g (slab_size_of g k).
Proof.
  intros Hj Hu. destruct (gclass _ _ _ _ I a k C) as (E & F & P & Iv & _). destruct (slot_info _ _ _ _ I a k i j C Hj Hu) as (Hs & _).
  destruct (slab_range g k _ _ _ _ _ _ _ i Iv Hs). lia.
Qed.

(** *** allocation in one class *)
Definition waf (f : fault) : Prop := f = Fatal "detected write after free" /\ WRITE_AFTER_FREE_CHECK g = true /\ ~ clean g s.
Lemma alloc_class_wp :
  wp (on_class g a k (allocate_small_class g k (negb (k =? 0)))) s
    (fun r s' => ginv g s' LL X /\ same_place s s' /\ st_ra s' = st_ra s /\ 
       match r with
       | None => hstep g s LL s' LL None None /\ errno (st_os s') = ENOMEM /\ (get_metadata_max g (slab_size_of g k) <= c_mcount c \/ refused (st_os s) (st_os s'))
       | Some p => hstep g s LL s' LL None (Some (p, usable_of g k)) /\ (exists i j, sblk g s' a k i j p) /\
                   (forall x, p <= x < p + usable_of g k -> mem (st_os s') x = mem (st_os s) x) /\
                   (ZERO_ON_FREE g = true -> clean g s -> forall x, p <= x < p + usable_of g k -> mem (st_os s') x = 0)
       end)
    (fun f => sys_fault f \/ rng_fault f \/ waf f).
Proof.
  destruct (gclass _ _ _ _ I a k C) as (E & F & Iv). pose proof (ginv_geom _ _ _ _ _ _ I C) as G. pose proof (class_facts_all g k (proj2 C)) as CF.
  apply on_class_wp; [exact C|]. eapply wp_mono; [apply (allocate_small_wp g k _ _ E F Iv)| |].
  2:{ intros f [H|[H|(i & j & Hi & Hj & Hu & (-> & Nk & W & x & Hx & Nz))]]; auto. right. right. split; [auto|]. split; [auto|]. intros [_ Z0].
      pose proof (ucfg_of g (gi_u _ _ _ _ I)) as UC. pose proof (uc_waf g UC W) as ZF. destruct Iv as (P & Iv & _). destruct (slab_range g k _ _ _ _ _ _ _ i Iv Hi) as [R1 R2].
      apply Nz. apply (Z0 ZF a k i j x); auto; [lia|]. unfold granted. rewrite Hu. reflexivity. }
  intros r cs ASP. pose proof ASP as (o' & c' & E' & F' & -> & Iv' & O & CS & H). cbn [cs_c cs_os].
  assert (ginv g (S' o' c') LL X) as I'. { apply ginv_class_step; auto; [exists E', F'; exact Iv'|apply CS|apply CS]. }
  split; [exact I'|]. split; [apply same_place_put|]. split; [reflexivity|]. pose proof (cs_start _ _ _ _ CS) as Es.
  destruct r as [p|].
  - destruct H as (i & j & -> & [aj ai afree aused amem azero aerr ast] & _).
    assert (forall x y, 0 <= y < get_slots g k -> granted c' x y = granted c x y || ((x =? i) && (y =? j))) as Gr.
    { intros x y Hy. unfold granted. rewrite aused by (destruct CF; lia). rewrite (cs_quar _ _ _ _ CS).
      destruct ((x =? i) && (y =? j)) eqn:Q; [|now rewrite !orb_false_r]. assert (x = i /\ y = j) as [-> ->] by lia. rewrite afree. cbn.
      destruct (quar c i j) eqn:Qr; [|reflexivity]. destruct Iv as (P & Iv & _). rewrite (quar_used g k _ _ _ _ _ _ _ i j Iv) in afree; [discriminate|destruct CF; lia|auto]. }
    assert (granted c' i j = true) as Gn by (rewrite Gr by auto; rewrite !Z.eqb_refl; apply orb_true_r).
    assert (0 <= i < get_metadata_max g (slab_size_of g k)) as Hi.
    { destruct Iv' as (P & Iv' & _). destruct (slab_range g k _ _ _ _ _ _ _ i Iv' ai). lia. }
    assert (forall x y z, 0 <= y < get_slots g k -> (x =? i) && (y =? j) = false -> sptr g k c x y <= z < sptr g k c x y + slot_size g k -> mem o' z = mem (st_os s) z) as KO.
    { intros x y z Hy NE Hz. rewrite amem. destruct (_ && _ && _) eqn:B; [|auto]. exfalso.
      destruct (sptr_apart g k c G x y i j z Hy aj Hz ltac:(destruct CF; lia)) as [-> ->]. lia. }
    assert (forall z, sptr g k c i j <= z < sptr g k c i j + slot_size g k - canary_size g -> mem o' z = mem (st_os s) z) as KN.
    { intros z Hz. rewrite amem. destruct (_ && _ && _) eqn:B; [|auto]. exfalso. unfold canary_size in Hz. destruct (SLAB_CANARY g); [|discriminate]. lia. }
    assert (canary_intact g k o' c' i j) as CN.
    { intros Sc Nk. rewrite (sptr_ext g k c c') by auto. apply u64_stored.
      - destruct Iv' as (P & Iv' & _). apply (so_can _ _ (ci_slabs _ _ _ _ _ _ _ _ _ Iv' i)).
      - intros z Hz. rewrite amem, Sc. replace (k =? 0) with false by lia. cbn [negb andb]. replace (_ && _) with true by (destruct CF; lia). f_equal. }
    assert (clean g s -> clean g (S' o' c')) as CL.
    { intros Cl. apply class_clean; auto.
      - intros x y Hy Gxy. destruct ((x =? i) && (y =? j)) eqn:Q.
        + assert (x = i /\ y = j) as [-> ->] by lia. exact CN.
        + rewrite Gr, Q, orb_false_r in Gxy by auto. apply (canary_same (st_os s) o' c c'); [apply sptr_ext; auto| |apply CF| |apply Cl; auto].
          * apply (cs_can _ _ _ _ CS). apply (slot_info _ _ _ _ I a k x y C Hy (granted_used _ _ _ Gxy)).
          * intros z Hz. eapply KO; eauto.
      - intros ZF Nk x y z Hx Hy Gxy Hz. rewrite Gr in Gxy by auto. apply orb_false_elim in Gxy. destruct Gxy as [G1 G2]. pose proof (canary_le g).
        rewrite (KO x y z Hy G2) by lia. eapply (cl_zero _ _ Cl ZF a k); eauto. }
    assert (sblk g (S' o' c') a k i j (sptr g k c i j)) as SB. { apply sblk_put; [auto|]. left. auto. }
    split; [|split; [|split]].
    + apply (class_hstep o' c' None (Some (sptr g k c i j))); auto.
      * intros x y Hy. rewrite Gr by auto. rewrite orb_true_iff. split.
        -- intros [H|H]; [left; split; [auto|discriminate]|right]. assert (x = i /\ y = j) as [-> ->] by lia. reflexivity.
        -- intros [[H _]|[= H]]; [auto|]. right. destruct (sptr_inj g k c G _ _ _ _ aj Hy H) as [-> ->]. lia.
      * intros x y p [= <-] Hy Gxy Ep. destruct (sptr_inj g k c G _ _ _ _ aj Hy Ep) as [-> ->]. apply granted_used in Gxy. congruence.
      * intros p [=].
      * intros p [= <-]. eauto.
      * intros x y Hy Gxy _. split; [apply (cs_can _ _ _ _ CS); apply (slot_info _ _ _ _ I a k x y C Hy (granted_used _ _ _ Gxy))|]. intros z Hz. eapply (KO x y); [auto| |lia].
        destruct ((x =? i) && (y =? j)) eqn:Q; [|auto]. assert (x = i /\ y = j) as [-> ->] by lia. apply granted_used in Gxy. congruence.
      * intros x y [= Exy] Hy Gxy. destruct (sptr_inj g k c G _ _ _ _ aj Hy Exy) as [-> ->]. split; [exact CN|]. intros W z Hz.
        unfold usable_of in Hz. destruct (Z.eqb_spec k 0); [lia|]. apply azero; auto. lia.
      * eapply (cp_alloc g k _ _ [] _ _ E F); [apply cp_refl|exact Iv|exact ASP].
      * intros H. elim H. reflexivity.
    + eauto.
    + intros x Hx. change (st_os (S' o' c')) with o'. apply KN. unfold usable_of in Hx. destruct (k =? 0); [destruct CF; pose proof (canary_le g); lia|lia].
    + intros ZF Cl x Hx. change (st_os (S' o' c')) with o'. unfold usable_of in Hx. destruct (Z.eqb_spec k 0); [lia|]. rewrite KN by lia.
      eapply (cl_zero _ _ Cl ZF a k i j); eauto; [|lia]. unfold granted. rewrite afree. reflexivity.
  - destruct H as (_ & _ & Er & Hu & _ & Hm & Rf).
    assert (forall x y, granted c' x y = granted c x y) as Gr by (intros x y; unfold granted; rewrite Hu, (cs_quar _ _ _ _ CS); auto).
    assert (clean g s -> clean g (S' o' c')) as CL.
    { intros Cl. apply class_clean; auto.
      - intros x y Hy Gxy. rewrite Gr in Gxy. apply (canary_same (st_os s) o' c c'); [apply sptr_ext; auto| |apply CF|auto|apply Cl; auto].
        apply (cs_can _ _ _ _ CS). apply (slot_info _ _ _ _ I a k x y C Hy (granted_used _ _ _ Gxy)).
      - intros ZF Nk x y z Hx Hy Gxy Hz. rewrite Gr in Gxy. rewrite Hm. eapply (cl_zero _ _ Cl ZF a k); eauto. }
    split; [|split; [exact Er|exact Rf]]. apply (class_hstep o' c' None None); auto; try (intros; discriminate).
    + intros x y Hy. rewrite Gr. split; [intros H; left; split; [auto|discriminate]|intros [[H _]|[=]]; auto].
    + intros x y Hy Gxy _. split; [|auto]. apply (cs_can _ _ _ _ CS). apply (slot_info _ _ _ _ I a k x y C Hy (granted_used _ _ _ Gxy)).
    + eapply (cp_none g k _ _ [] _ _ E F); [apply cp_refl|exact Iv|exact ASP].
Qed.

(** *** deallocation in one class *)
Definition dsmall_fault (p : Z) (expected : option Z) (f : fault) : Prop :=
  (sys_fault f /\ exists i j, sblk g s a k i j p /\ canary_intact g k (st_os s) c i j) \/ (rng_fault f /\ exists i j, sblk g s a k i j p /\ canary_intact g k (st_os s) c i j) \/
  (f = Fatal "sized deallocation mismatch (small)" /\ exists e, expected = Some e /\ e <> class_size g k) \/
  (In f free_msgs /\ forall i j, ~ sblk g s a k i j p) \/
  (f = Fatal "canary corrupted" /\ (exists i j, sblk g s a k i j p) /\ ~ clean g s).
Lemma dealloc_class_wp p expected : 0 <= p < 2 ^ 64 ->
  wp (on_class g a k (deallocate_small_class g k p expected)) s
    (fun _ s' => ginv g s' LL X /\ same_place s s' /\ st_ra s' = st_ra s /\ hstep g s LL s' LL (Some p) None /\ (exists i j, sblk g s a k i j p) /\
       (forall e, expected = Some e -> e = class_size g k) /\ (errno (st_os s') = errno (st_os s) \/ errno (st_os s') = EINTR /\ intr (entq (st_os s))) /\
       (forall x, mem (st_os s') x = mem (st_os s) x \/ mem (st_os s') x = 0) /\
       (ZERO_ON_FREE g = true -> forall x, p <= x < p + usable_of g k -> mem (st_os s') x = 0) /\
       (forall a' k' i, class_in g a' k' -> 0 < cntof (st_cls s a' k') i -> cntof (st_cls s' a' k') i <= 0 ->
          In (Some i) (c_fq (st_cls s' a' k')) \/ exists E F, cinvL g k' (st_os s') (st_cls s' a' k') E F /\ In i E))
    (dsmall_fault p expected).
Proof.
  intros Hp. destruct (gclass _ _ _ _ I a k C) as (E & F & Iv). pose proof (ginv_geom _ _ _ _ _ _ I C) as G. pose proof (class_facts_all g k (proj2 C)) as CF.
  apply on_class_wp; [exact C|]. eapply wp_mono; [apply (deallocate_small_wp g k _ _ E F p expected Iv Hp)| |].
  2:{ intros f [[H (i & j & Hj & Hg & Ep & Hc)]|[[H (i & j & Hj & Hg & Ep & Hc)]|[H|[[H N]|(-> & i & j & Hj & Hg & -> & K)]]]]; unfold dsmall_fault; auto.
      - left. split; [auto|]. exists i, j. split; [split; auto|auto].
      - right. left. split; [auto|]. exists i, j. split; [split; auto|auto].
      - right. right. right. left. split; [auto|]. intros i j (_ & Hj & Hg & Ep). apply (N i j); auto.
      - right. right. right. right. split; [auto|]. split; [exists i, j; split; auto|]. intros [Cc _]. apply K. apply Cc; auto. }
  intros r cs DSP. pose proof DSP as (o' & c' & E' & F' & i & j & -> & Iv' & [dj dp dg dexp dcan dsm drest dused dmem dkeep dzero derr dos dst] & DR). cbn [cs_c cs_os].
  pose proof (ds_start _ _ dsm) as Es.
  assert (os_in (cdom g c) (st_os s) o') as O by (eapply os_in_mono; [|exact dos]; intros q Hq; left; auto).
  assert (ginv g (S' o' c') LL X) as I'. { apply ginv_class_step; auto; [exists E', F'; exact Iv'|apply dsm]. }
  assert (forall x y, 0 <= y < get_slots g k -> granted c' x y = granted c x y && negb ((x =? i) && (y =? j))) as Gr by (intros; apply drest; destruct CF; lia).
  split; [exact I'|]. split; [apply same_place_put|]. split; [reflexivity|].
  assert (forall x y z, 0 <= y < get_slots g k -> granted c' x y = true -> sptr g k c x y <= z < sptr g k c x y + slot_size g k -> mem o' z = mem (st_os s) z) as KO.
  { intros x y z Hy Gxy Hz. eapply (dkeep x y); eauto using granted_used. rewrite Gr in Gxy by auto. apply andb_prop in Gxy. destruct Gxy as [_ Q]. destruct (_ && _); [discriminate|auto]. }
  split; [|split; [|split; [exact dexp|split; [exact derr|split; [exact dmem|split]]]]].
  - apply (class_hstep o' c' (Some p) None); auto; try (intros; discriminate).
    + intros x y Hy. rewrite Gr by auto. rewrite andb_true_iff. split.
      * intros [H N]. left. split; [auto|]. intros [= Ep]. rewrite dp in Ep. destruct (sptr_inj g k c G _ _ _ _ dj Hy Ep) as [-> ->]. rewrite !Z.eqb_refl in N. discriminate.
      * intros [[H N]|[=]]. split; [auto|]. destruct ((x =? i) && (y =? j)) eqn:Q; [|auto]. exfalso. apply N. f_equal. assert (x = i /\ y = j) as [-> ->] by lia. auto.
    + intros q [= <-]. exists i, j. split; [split; auto|exact dcan].
    + intros x y Hy Gxy N. split; [apply dsm|]. intros z Hz. eapply (KO x y); [auto| |lia]. rewrite Gr by auto. rewrite Gxy. cbn.
      destruct ((x =? i) && (y =? j)) eqn:Q; [|auto]. exfalso. apply N. f_equal. assert (x = i /\ y = j) as [-> ->] by lia. auto.
    + eapply (cp_free g k _ _ [] _ _ E F); [apply cp_refl|exact Iv|exact DSP].
    + intros Cl. apply class_clean; auto.
      * intros x y Hy Gxy. apply (canary_same (st_os s) o' c c'); [apply sptr_ext; auto|apply dsm|apply CF| |].
        -- intros z Hz. eapply KO; eauto.
        -- rewrite Gr in Gxy by auto. apply andb_prop in Gxy. apply (cl_can _ _ Cl); auto. apply Gxy.
      * intros ZF Nk x y z Hx Hy Gxy Hz. rewrite Gr in Gxy by auto. destruct ((x =? i) && (y =? j)) eqn:Q.
        -- assert (x = i /\ y = j) as [-> ->] by lia. apply dzero; auto. subst p. lia.
        -- rewrite andb_true_r in Gxy. destruct (dmem z) as [->| ->]; [|auto]. eapply (cl_zero _ _ Cl ZF a k); eauto.
  - exists i, j. split; auto.
  - intros ZF x Hx. unfold usable_of in Hx. destruct (Z.eqb_spec k 0); [lia|]. apply dzero; auto. lia.
  - intros a' k' x C' Hc Hc'. assert ({a' = a /\ k' = k} + {~ (a' = a /\ k' = k)}) as [[-> ->]|N] by (destruct (Z.eq_dec a' a), (Z.eq_dec k' k); auto; right; tauto).
    2:{ exfalso. rewrite put_other in Hc' by (destruct (Z.eq_dec a' a), (Z.eq_dec k' k); auto; elim N; auto). lia. }
    rewrite put_at in *. change (st_os (S' o' c')) with o'. pose proof Iv as (P1 & Ix & _). pose proof Iv' as (P1' & Ix' & _).
    assert (forall y, cntof c y = zcount (used c y) 0 (get_slots g k)) as Q1 by (intros; apply (so_cnt _ _ (ci_slabs _ _ _ _ _ _ _ _ _ Ix y))).
    assert (forall y, cntof c' y = zcount (used c' y) 0 (get_slots g k)) as Q2 by (intros; apply (so_cnt _ _ (ci_slabs _ _ _ _ _ _ _ _ _ Ix' y))).
    destruct DR as (out & _ & R). destruct out as [p'|].
    2:{ exfalso. destruct R as (_ & _ & _ & R & _). rewrite Q2 in Hc'. rewrite Q1 in Hc. rewrite (zcount_ext (used c' x) (used c x)) in Hc' by (intros; apply R). lia. }
    destruct R as (i' & j' & Hj' & _ & U' & R & L). assert (get_slots g k <= 256) as S256 by (destruct CF; lia).
    destruct (Z.eq_dec x i') as [->|N].
    2:{ exfalso. rewrite Q2 in Hc'. rewrite Q1 in Hc. rewrite (zcount_ext (used c' x) (used c x)) in Hc'; [lia|]. intros y Hy. rewrite R by lia. replace (x =? i') with false by lia. cbn. apply andb_true_r. }
    assert (cntof c i' = 1) as C1.
    { rewrite Q2 in Hc'. rewrite Q1 in *. rewrite (zcount_upd (used c i') (used c' i') 0 (get_slots g k) j' Hj') in Hc'.
      - rewrite U' in Hc'. destruct (used c' i' j'); cbn in Hc'; lia.
      - intros y Hy Ny. rewrite R by lia. replace (y =? j') with false by lia. rewrite andb_false_r. apply andb_true_r. }
    destruct L as [(L & _)|[(_ & L & _)|(_ & _ & _ & (t & sub & L1 & L2 & _) & _)]]; [lia| |].
    + right. exists E', F'. split; [exact Iv'|]. rewrite L. left. reflexivity.
    + left. rewrite L2. apply (lget_In _ t). apply lget_lset_eq. eapply lget_Some_range; eauto.
Qed.

(** *** trimming one class *)
Lemma trim_wp : k <> 0 ->
  wp (on_class g a k (malloc_trim_class g k)) s
    (fun b s' => (ginv g s' LL X /\ same_place s s' /\ st_ra s' = st_ra s /\ hstep g s LL s' LL None None) /\
       trim_cls g k (st_os s) c b (st_os s') (st_cls s' a k) /\ forall a0 k0, a0 <> a \/ k0 <> k -> st_cls s' a0 k0 = st_cls s a0 k0)
    (fun f => sys_fault f \/ rng_fault f).
Proof.
  intros Nk. destruct (gclass _ _ _ _ I a k C) as (E & F & Iv). pose proof (ginv_geom _ _ _ _ _ _ I C) as G. pose proof (class_facts_all g k (proj2 C)) as CF.
  apply on_class_wp; [exact C|]. eapply wp_mono; [apply (trim_class_wp g k _ _ E F Iv Nk)| |auto].
  intros r cs (o' & c' & E1 & E' & F' & -> & EE & Eb & Iv' & TP & Rf). pose proof TP as [tsame tst tused tmem tgone tos tF tperm]. cbn [cs_c cs_os].
  pose proof (rs_d _ _ tsame) as dsm. pose proof (ds_start _ _ dsm) as Es.
  assert (os_in (cdom g c) (st_os s) o') as O by (eapply os_in_mono; [|exact tos]; intros q Hq; left; auto).
  assert (ginv g (S' o' c') LL X) as I'. { apply ginv_class_step; auto; [exists E', F'; exact Iv'|apply dsm]. }
  assert (forall x y, granted c' x y = granted c x y) as Gr by (intros x y; unfold granted; rewrite tused, (rs_quar _ _ tsame); auto).
  split; [|split; [rewrite put_at; exists E, F, E1, E', F'; auto 10|intros; apply put_other; auto]].
  split; [exact I'|]. split; [apply same_place_put|]. split; [reflexivity|].
  assert (forall x y z, 0 <= y < get_slots g k -> granted c x y = true -> sptr g k c x y <= z < sptr g k c x y + slot_size g k -> mem o' z = mem (st_os s) z) as KO.
  { intros x y z Hy Gxy Hz. destruct (tmem z) as [->|[_ [(i & Hi & Hz2)|(i & j & Hj & Hq & Hz2)]]]; [auto| |]; exfalso.
    - destruct Iv as (P & Iv & _). destruct (slot_info _ _ _ _ I a k x y C Hy (granted_used _ _ _ Gxy)) as (_ & Hc & _).
      pose proof (slot_in_slab g k c G x y Hy). assert (x = i) as -> by (eapply (slab_disjoint g k c x i z G); lia).
      destruct (ma_0 _ _ _ _ _ _ _ (ci_match _ _ _ _ _ _ _ _ _ Iv) i ltac:(discriminate)) as [M0 _].
      destruct M0 as [_ M0]; [|lia]. rewrite EE. rewrite !in_app_iff. auto.
    - destruct (sptr_apart g k c G x y i j z Hy Hj Hz Hz2) as [-> ->]. unfold granted in Gxy. rewrite Hq, andb_false_r in Gxy. discriminate. }
  apply (class_hstep o' c' None None); auto; try (intros; discriminate).
  - intros x y Hy. rewrite Gr. split; [intros H; left; split; [auto|discriminate]|intros [[H _]|[=]]; auto].
  - intros x y Hy Gxy _. split; [apply dsm|]. intros z Hz. eapply (KO x y); eauto.
  - eapply (cp_trim g k _ _ [] _ _ E F); [apply cp_refl|exact Iv|]. exists E1, E', F'. auto.
  - intros Cl. apply class_clean; auto.
    + intros x y Hy Gxy. rewrite Gr in Gxy. apply (canary_same (st_os s) o' c c'); [apply sptr_ext; auto|apply dsm|apply CF| |apply Cl; auto].
      intros z Hz. eapply KO; eauto.
    + intros ZF _ x y z Hx Hy Gxy Hz. rewrite Gr in Gxy. destruct (tmem z) as [->|[-> _]]; [|auto]. eapply (cl_zero _ _ Cl ZF a k); eauto.
Qed.
End C.
